(** Property C54: the membership of a whole cluster with the heartbeat adapter. *)
From Verif Require Import Base GoTypes ClusterReq Heartbeat HeartbeatSpec HeartbeatProofs HeartbeatExamples.
Local Open Scope Z_scope.

Ltac unf := cbv [h_periods h_start one_period minute h_left h_late h_zombie h_noinit arrive concat replicate app take].
Ltac evs := unf; repeat (apply Forall_cons; split; [try exact I; try apply ord_std_ok; try (split; first [apply ord_std_ok|apply ord_rev_ok])|]); apply Forall_nil_2.

(** ** C54 Membership of the cluster
    Heartbeat timers fire at most [late] too late, messages take at most [delay], and the timeout leaves room
    for an interval and both.  Then servers [u] and [v] that called Init more than two delays ago count each
    other, as long as [u] is not closed. *)
Theorem C54_known : ∀ (interval timeout : Z) (revive : bool) (late delay t : Z) (a : list mev) (u : string) (b a' : list mev) (v : string) (b' : list mev) (sa sa' s : mstate),
  0 ≤ interval → 0 ≤ late → 0 ≤ delay → interval + late + delay ≤ timeout →
  u ≠ v → u ≠ "emitter" → a ++ EInit u :: b = a' ++ EInit v :: b' →
  Forall mev_ok (a ++ EInit u :: b) → EClose u ∉ a ++ EInit u :: b →
  timely interval timeout revive late delay (nobody t) (a ++ EInit u :: b) →
  mrun interval timeout revive (nobody t) a = Some sa → mrun interval timeout revive (nobody t) a' = Some sa' →
  mrun interval timeout revive (nobody t) (a ++ EInit u :: b) = Some s →
  ms_now sa + 2 * delay < ms_now s → ms_now sa' + 2 * delay < ms_now s → counts s v u.
Proof. exact known_l. Qed.
Print Assumptions C54_known.
(** Once every server called Init, ServerCount is right everywhere. *)
Theorem C54_count : ∀ (interval timeout : Z) (revive : bool) (late delay t : Z) (h : list mev) (v : string) (n : mnode) (s : mstate),
  0 ≤ interval → 0 ≤ late → 0 ≤ delay → interval + late + delay ≤ timeout → "emitter" ∉ dom (ms_nodes s) →
  Forall mev_ok h → (∀ u, EClose u ∉ h) → timely interval timeout revive late delay (nobody t) h →
  mrun interval timeout revive (nobody t) h = Some s →
  (∀ u, u ∈ dom (ms_nodes s) → ∃ a b sa, h = a ++ EInit u :: b ∧ mrun interval timeout revive (nobody t) a = Some sa ∧ ms_now sa + 2 * delay < ms_now s) →
  ms_nodes s !! v = Some n → server_count (mn_h n) = size (ms_nodes s) ∧ dom (hb_nodes (mn_h n)) = dom (ms_nodes s) ∖ {[v]}.
Proof. exact count_l. Qed.
Print Assumptions C54_count.
(** Three servers, 27 seconds after the last Init, with late timers and slow messages. *)
Example C54_count_example : ∃ s, mrun 5000 10000 true (nobody 0) h_periods = Some s ∧ Forall mev_ok h_periods ∧ (∀ u, EClose u ∉ h_periods) ∧
  timely 5000 10000 true 1000 2000 (nobody 0) h_periods ∧ dom (ms_nodes s) = {["a"; "b"; "c"]} ∧
  (∀ u, u ∈ ({["a"; "b"; "c"]} : gset string) → ∃ a b sa, h_periods = a ++ EInit u :: b ∧ mrun 5000 10000 true (nobody 0) a = Some sa ∧ ms_now sa + 2 * 2000 < ms_now s) ∧
  ms_now s = 33000 ∧ (known_to "a" s, known_to "b" s, known_to "c" s) = (["b"; "c"], ["a"; "c"], ["b"; "a"]).
Proof.
  exists (fin true (nobody 0) h_periods). split; [apply run_fin; vm_compute; reflexivity|]. split; [evs|]. split.
  { intros u. unf. intros H. apply elem_of_list_In in H. cbn [In] in H. repeat (destruct H as [H|H]; [discriminate|]). exact H. }
  split; [apply timely_b_ok; vm_compute; reflexivity|]. split; [by_eval|]. split; [|split; vm_compute; reflexivity].
  intros u Hu. rewrite !elem_of_union, !elem_of_singleton in Hu. destruct Hu as [[->| ->]| ->].
  - exists [EJoin "a"; EJoin "b"]. eexists. exists (fin true (nobody 0) [EJoin "a"; EJoin "b"]). split; [unf; reflexivity|]. split; [apply run_fin|]; vm_compute; reflexivity.
  - exists [EJoin "a"; EJoin "b"; EInit "a"]. eexists. exists (fin true (nobody 0) [EJoin "a"; EJoin "b"; EInit "a"]). split; [unf; reflexivity|]. split; [apply run_fin|]; vm_compute; reflexivity.
  - exists ([EJoin "a"; EJoin "b"; EInit "a"; EInit "b"; ETick 1000] ++ arrive 4 ++ [EJoin "c"]). eexists. exists (fin true (nobody 0) ([EJoin "a"; EJoin "b"; EInit "a"; EInit "b"; ETick 1000] ++ arrive 4 ++ [EJoin "c"])). split; [unf; reflexivity|]. split; [apply run_fin|]; vm_compute; reflexivity.
Qed.

(** A server that crashed, or for another reason says nothing from [s1] on, is no longer counted after a
    check later than the delay and the timeout. *)
Theorem C54_forgotten : ∀ (interval timeout : Z) (revive : bool) (late delay t : Z) (h : list mev) (s1 : mstate) (a : list mev) (v : string) (on o : order) (b : list mev) (sc s : mstate) (u : string),
  0 ≤ delay → Forall mev_ok (h ++ a ++ ECheck v on o :: b) →
  timely interval timeout revive late delay (nobody t) (h ++ a ++ ECheck v on o :: b) →
  mrun interval timeout revive (nobody t) h = Some s1 → mrun interval timeout revive s1 a = Some sc →
  mrun interval timeout revive s1 (a ++ ECheck v on o :: b) = Some s →
  says_nothing interval timeout revive s1 (a ++ ECheck v on o :: b) u →
  0 ≤ timeout → ms_now s1 + delay + timeout < ms_now sc → ¬ counts s v u.
Proof. exact forgotten_l. Qed.
Print Assumptions C54_forgotten.
(** That is so after Close, if no INITIAL_HEARTBEAT reaches the closed adapter. *)
Theorem C54_closed : ∀ (interval timeout : Z) (revive : bool) (s0 : mstate) (u : string) (s1 : mstate) (h : list mev),
  mstep interval timeout revive s0 (EClose u) = Some s1 →
  left_alone interval timeout revive s1 h u → says_nothing interval timeout revive s1 h u.
Proof. exact closed_l. Qed.
Print Assumptions C54_closed.
Definition s_closed : mstate := fin true (nobody 0) (h_left ++ [EClose "a"]).
Example C54_closed_example : ∃ s, mstep 5000 10000 true (fin true (nobody 0) h_left) (EClose "a") = Some s_closed ∧
  left_alone 5000 10000 true s_closed (arrive 1 ++ minute) "a" ∧ mrun 5000 10000 true s_closed (arrive 1 ++ minute) = Some s ∧
  known_to "b" s_closed = ["a"] ∧ known_to "b" s = [] ∧ ms_now s = 60000.
Proof.
  exists (fin true s_closed (arrive 1 ++ minute)). split; [vm_compute; reflexivity|]. split; [|split; [apply run_fin; vm_compute; reflexivity|split_and!; vm_compute; reflexivity]].
  assert (Hn : ∀ e, e ∈ arrive 1 ++ minute → match e with EInit _ | ERequest _ | EBase _ | EClose _ => False | _ => True end).
  { apply Forall_forall. unf. repeat constructor. }
  split; [intros H; apply (Hn _ H)|]. split; [intros H; apply (Hn _ H)|]. split; [intros H; apply (Hn _ H)|]. split; [intros H; apply (Hn _ H)|].
  (* every message on its way is a farewell or a heartbeat *)
  assert (Hm : ∀ h s, mrun 5000 10000 true s_closed h = Some s → (∀ e, e ∈ h → match e with EInit _ => False | _ => True end) → ∀ f, f ∈ ms_net s → fl_msg f ≠ MInitial).
  { intros h. induction h as [|e h IH] using rev_ind; intros s Hr Hh f Hf.
    - injection Hr as <-. assert (Forall (λ f, fl_msg f = MClose) (ms_net s_closed)) as Hall by (vm_compute; repeat constructor).
      rewrite Forall_forall in Hall. by rewrite (Hall f Hf).
    - rewrite mrun_snoc in Hr. apply bind_Some in Hr as (s2 & Hr & Hs).
      destruct (step_new 5000 10000 true s2 e s f Hs Hf) as [Hf'|Hnew].
      + apply (IH s2 Hr); [|done]. intros e' He'. apply Hh. apply elem_of_app. by left.
      + apply Hnew. intros u ->. apply (Hh (EInit u)). apply elem_of_app. right. left. }
  intros a i o b s f E Hr Hf _. apply (Hm a s Hr); [|by eapply elem_of_list_lookup_2].
  intros e He. assert (He' : e ∈ arrive 1 ++ minute) by (rewrite E; apply elem_of_app; by left). specialize (Hn e He'). destruct e; done.
Qed.

(** ** Findings *)
(** Nothing in the repository calls Init.  Without it a server that is alive and broadcasts is forgotten:
    broadcasts of the embedded adapter do not start the heartbeat. *)
Theorem C54_no_init_refuted : ∃ (h : list mev) (s : mstate) (u v : string),
  mrun 5000 10000 true (nobody 0) h = Some s ∧ Forall mev_ok h ∧ timely 5000 10000 true 0 0 (nobody 0) h ∧
  EBase u ∈ h ∧ (∀ w, EClose w ∉ h) ∧ u ∈ dom (ms_nodes s) ∧ v ∈ dom (ms_nodes s) ∧ ¬ counts s v u ∧ ms_net s = [].
Proof.
  exists h_noinit, (fin true (nobody 0) h_noinit), "a", "b". split; [apply run_fin; vm_compute; reflexivity|]. split; [evs|].
  split; [apply timely_b_ok; vm_compute; reflexivity|]. split; [unf; do 2 right; left|]. split.
  { intros w. unf. intros H. apply elem_of_list_In in H. cbn [In] in H. repeat (destruct H as [H|H]; [discriminate|]). exact H. }
  split; [by_eval|]. split; [by_eval|]. split; [apply not_counts_b|]; vm_compute; reflexivity.
Qed.
Print Assumptions C54_no_init_refuted.
(** A closed adapter that the transport still serves answers an INITIAL_HEARTBEAT, and is counted again long
    after its Close, whatever Refresh does. *)
Theorem C54_closed_refuted : ∀ revive : bool, ∃ (h y : list mev) (s1 s : mstate) (u v : string),
  mrun 5000 10000 revive (nobody 0) h = Some s1 ∧ mrun 5000 10000 revive s1 (EClose u :: y) = Some s ∧
  Forall mev_ok (h ++ EClose u :: y) ∧ timely 5000 10000 revive 0 0 (nobody 0) (h ++ EClose u :: y) ∧
  EInit u ∉ y ∧ ERequest u ∉ y ∧ EBase u ∉ y ∧ EClose u ∉ y ∧ ms_now s1 + 10000 + 10000 < ms_now s ∧ counts s v u.
Proof.
  intros revive. exists h_left, h_late, (fin revive (nobody 0) h_left), (fin revive (fin revive (nobody 0) h_left) (EClose "a" :: h_late)), "a", "b".
  split; [apply run_fin; destruct revive; vm_compute; reflexivity|]. split; [apply run_fin; destruct revive; vm_compute; reflexivity|]. split; [evs|]. split; [apply timely_b_ok; destruct revive; vm_compute; reflexivity|].
  assert (Hn : ∀ e, e ∈ h_late → match e with EInit u | ERequest u | EBase u | EClose u => bool_decide (u ≠ "a") = true | _ => True end).
  { apply Forall_forall. unf. repeat constructor. }
  split; [intros H; apply Hn in H; discriminate|]. split; [intros H; apply Hn in H; discriminate|]. split; [intros H; apply Hn in H; discriminate|].
  split; [intros H; apply Hn in H; discriminate|]. split; [destruct revive; vm_compute; reflexivity|].
  apply counts_b. destruct revive; vm_compute; reflexivity.
Qed.
Print Assumptions C54_closed_refuted.
(** And if Refresh re-arms a stopped timer, the closed adapter sends heartbeats for ever after. *)
Theorem C54_zombie_refuted : ∃ (h y z : list mev) (s1 s2 s : mstate) (u v : string),
  mrun 5000 10000 true (nobody 0) h = Some s1 ∧ mrun 5000 10000 true s1 (EClose u :: y) = Some s2 ∧ mrun 5000 10000 true s2 z = Some s ∧
  Forall mev_ok (h ++ EClose u :: y ++ z) ∧ timely 5000 10000 true 0 0 (nobody 0) (h ++ EClose u :: y ++ z) ∧
  (∀ w, EInit w ∉ z) ∧ EInit u ∉ y ∧ ERequest u ∉ y ++ z ∧ EBase u ∉ y ++ z ∧ ms_net s2 = [] ∧ ms_now s2 + 4 * 10000 < ms_now s ∧ counts s v u.
Proof.
  exists h_left, h_late, h_zombie, (fin true (nobody 0) h_left), (fin true (fin true (nobody 0) h_left) (EClose "a" :: h_late)),
    (fin true (fin true (fin true (nobody 0) h_left) (EClose "a" :: h_late)) h_zombie), "a", "b".
  split; [apply run_fin; vm_compute; reflexivity|]. split; [apply run_fin; vm_compute; reflexivity|]. split; [apply run_fin; vm_compute; reflexivity|].
  split; [evs|]. split; [apply timely_b_ok; vm_compute; reflexivity|].
  assert (Hn : ∀ e, e ∈ h_late ++ h_zombie → match e with EInit u | ERequest u | EBase u => bool_decide (u ≠ "a") = true | _ => True end).
  { apply Forall_forall. unf. repeat constructor. }
  assert (Hz : ∀ e, e ∈ h_zombie → match e with EInit u => False | _ => True end).
  { apply Forall_forall. unf. repeat constructor. }
  split; [intros w H; apply (Hz _ H)|]. split; [intros H; specialize (Hn (EInit "a")); rewrite elem_of_app in Hn; specialize (Hn (or_introl H)); discriminate|].
  split; [intros H; apply Hn in H; discriminate|]. split; [intros H; apply Hn in H; discriminate|]. split; [vm_compute; reflexivity|]. split; [vm_compute; reflexivity|].
  apply counts_b. vm_compute. reflexivity.
Qed.
Print Assumptions C54_zombie_refuted.
