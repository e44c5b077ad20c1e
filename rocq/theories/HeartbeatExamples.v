(** Concrete runs of a cluster, and a checker for the timing hypothesis. *)
From Verif Require Import Base GoTypes ClusterReq Heartbeat HeartbeatSpec HeartbeatProofs.

Section dec.
  Context (interval timeout : Z) (revive : bool) (late delay : Z).
  Definition prompt_b (s : mstate) (d : Z) : bool :=
    forallb (λ n, match mn_timer n with TmArmed due => bool_decide (ms_now s + d ≤ due + late)%Z | _ => true end) (map_to_list (ms_nodes s)).*2 &&
    forallb (λ f, bool_decide (ms_now s + d ≤ fl_sent f + delay)%Z) (ms_net s).
  Fixpoint timely_b (s : mstate) (h : list mev) : bool :=
    match h with
    | [] => true
    | e :: h => (match e with ETick d => prompt_b s d | _ => true end) &&
        match mstep interval timeout revive s e with Some s' => timely_b s' h | None => true end
    end.
  Lemma prompt_b_ok s d : prompt_b s d = true → prompt late delay s d.
  Proof.
    intros [H1 H2]%andb_prop. rewrite forallb_forall in H1, H2. split.
    - intros u n due Hu Ht. specialize (H1 n). rewrite Ht in H1. eapply bool_decide_eq_true_1. apply H1.
      apply elem_of_list_In, elem_of_list_fmap. exists (u, n). split; [done|]. by apply elem_of_map_to_list.
    - intros f Hf. eapply bool_decide_eq_true_1. apply H2. by apply elem_of_list_In.
  Qed.
  Lemma timely_b_ok s h : timely_b s h = true → timely interval timeout revive late delay s h.
  Proof.
    revert s. induction h as [|e h IH]; intros s; [intros _ [] ? ? ? [=]|].
    cbn [timely_b]. intros [H1 H2]%andb_prop [|e' a] d b sx [= -> E] Hr.
    - injection Hr as <-. by apply prompt_b_ok.
    - subst. cbn [mrun] in Hr. apply bind_Some in Hr as (s1 & Hs & Hr). rewrite Hs in H2. by eapply (IH s1 H2).
  Qed.
End dec.

(** The oldest [n] messages arrive. *)
Definition arrive (n : nat) : list mev := replicate n (EDeliver 0 ord_std).
(** Two servers start, a third one a second later; then periods of 6 s (timers 1 s late) with checks
    before the heartbeats, which take 2 s, arrive. *)
Definition h_start : list mev :=
  [EJoin "a"; EJoin "b"; EInit "a"; EInit "b"; ETick 1000] ++ arrive 4 ++ [EJoin "c"; EInit "c"] ++ arrive 2 ++ [ETick 2000] ++ arrive 4.
Definition one_period : list mev :=
  [ETick 4000; EFire "a"; EFire "b"; EFire "c"; ETick 2000; ECheck "a" ord_std ord_std; ECheck "b" ord_rev ord_std; ECheck "c" ord_std ord_std] ++ arrive 6.
Definition h_periods : list mev := h_start ++ concat (replicate 5 one_period).
(** Server "a" closes; a minute later server "c" starts. *)
Definition minute : list mev := concat (replicate 12 [ETick 5000; EFire "b"; EDeliver 0 ord_std; ECheck "b" ord_std ord_std]).
Definition h_left : list mev := [EJoin "a"; EJoin "b"; EInit "a"; EInit "b"] ++ arrive 4.
Definition h_late : list mev := arrive 1 ++ minute ++ [EJoin "c"; EInit "c"] ++ arrive 6 ++ [ECheck "b" ord_std ord_std].
(** And then only heartbeats for 50 s. *)
Definition h_zombie : list mev :=
  concat (replicate 10 ([ETick 5000; EFire "a"; EFire "b"; EFire "c"] ++ arrive 6 ++ [ECheck "b" ord_std ord_std])).
(** Nobody calls Init: server "a" broadcasts, and is silent for 11 s. *)
Definition h_noinit : list mev := [EJoin "a"; EJoin "b"; EBase "a"; EBase "b"] ++ arrive 2 ++ [ETick 11000; ECheck "b" ord_std ord_std; ECheck "a" ord_std ord_std].
Definition known_to (v : string) (s : mstate) : list string :=
  match ms_nodes s !! v with Some n => (map_to_list (hb_nodes (mn_h n))).*1 | None => [] end.
Definition timers (s : mstate) : list (string * htimer) := (λ x, (x.1, mn_timer x.2)) <$> map_to_list (ms_nodes s).
(** The end of a concrete run. *)
Definition fin (revive : bool) (s : mstate) (h : list mev) : mstate := default s (mrun 5000 10000 revive s h).
Lemma run_fin revive s h : match mrun 5000 10000 revive s h with Some _ => true | None => false end = true →
  mrun 5000 10000 revive s h = Some (fin revive s h).
Proof. unfold fin. by destruct (mrun _ _ _ s h). Qed.
Lemma counts_b s v u : match ms_nodes s !! v with Some n => bool_decide (is_Some (hb_nodes (mn_h n) !! u)) | None => false end = true → counts s v u.
Proof.
  destruct (ms_nodes s !! v) as [n|] eqn:E; [|done]. intros H%bool_decide_eq_true_1. exists n. split; [done|]. by apply elem_of_dom.
Qed.
Lemma not_counts_b s v u : match ms_nodes s !! v with Some n => bool_decide (is_Some (hb_nodes (mn_h n) !! u)) | None => false end = false → ¬ counts s v u.
Proof.
  intros H (n & Hn & Hin). rewrite Hn in H. apply bool_decide_eq_false_1 in H. by apply H, elem_of_dom.
Qed.
