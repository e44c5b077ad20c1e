(** Proofs on the conversation of a client with a namespace. *)
From Verif Require Import Base LifeConc LifeConcSpec WireConc WireConcSpec.

(** The places where a call can be. *)
Definition admission_pc (p : lpc) : bool :=
  match p with QStart | QStore | QMark | QCan | QOwn | QPacket | QTable | QNsps | QConnect | QConnection | QDone | QLeft | QRemove | QFlag => true | _ => false end.
Definition closing_pc (p : lpc) : bool :=
  match p with QStore | QMark | QCan | QOwn | QPacket | QTable | QNsps | QConnect | QConnection | QLeft | QRemove | QFlag | QError | QAdd => false | _ => true end.
Definition pc_ok (t : lcall) (p : lpc) : bool :=
  match t with
  | LcConnect _ _ => false
  | LcJoin _ => match p with QStart | QAdd | QDone => true | _ => false end
  | LcLeave _ => match p with QStart | QDone => true | _ => false end
  | _ => closing_pc p
  end.
Definition writes_pc (p : lpc) : bool := match p with QWrite _ | QCheck1 => true | _ => false end.

(** A step of a call other than the admission. *)
Record other_step (t : lcall) (p : lpc) (s : lstate) (p' : lpc) (s' : lstate) (e : option lev) : Prop := {
  os_pc : pc_ok t p' = true;
  os_begun : closes t → p' ≠ QStart;
  os_open : ls_open s' = true → ls_open s = true;
  os_listed : ls_listed s' = true → ls_listed s = true;
  os_connected : ls_connected s' = true → ls_connected s = true;
  os_csock : ls_csock s' = true → ls_csock s = true;
  os_cnsp : ls_cnsp s' = true → ls_cnsp s = true;
  os_cnsp_lost : ls_cnsp s = true → ls_cnsp s' = true ∨ closes t ∧ p ≠ QStart;
  os_event : e ≠ Some VPacket ∧ e ≠ Some VDenied;
  os_leave : e = Some VLeavePacket → writes_pc p = true ∧ ls_open s = true;
  os_writes : writes_pc p' = true → writes_pc p = true ∨ (t = LcDisconnect ∧ p = QStart) ∨ ls_csock s = true }.
Lemma step_other t p s : pc_ok t p = true → other_step t p s (lc_step1 t p s).1.1 (lc_step1 t p s).1.2 (lc_step1 t p s).2.
Proof.
  intros H. destruct s as [op co ca ro li cs cn].
  destruct t; destruct p; try discriminate H; cbn; repeat case_match; subst; split; cbn in *; try done; auto; try (split; done); try tauto.
  all: destruct k; done.
Qed.

(** What is known of the admission, the state and the packets. *)
Definition adm (clo : Prop) (p : lpc) (s : lstate) (w : list wpacket) : Prop :=
  match p with
  | QStart | QStore => ls_listed s = false ∧ ls_connected s = false ∧ ls_csock s = false ∧ ls_cnsp s = false ∧ PConnect ∉ w
  | QMark => ls_csock s = false ∧ ls_cnsp s = false ∧ PConnect ∉ w
  | QCan | QOwn | QPacket => ls_csock s = false ∧ ls_cnsp s = false ∧ PConnect ∉ w
  | QTable => ls_csock s = false ∧ ls_cnsp s = false ∧ (ls_open s = true → PConnect ∈ w)
  | QNsps => ls_cnsp s = false ∧ (ls_open s = true → PConnect ∈ w)
  | QConnect | QConnection => (ls_open s = true → PConnect ∈ w) ∧ (ls_cnsp s = true ∨ clo)
  | QDone => (ls_open s = true → PConnect ∈ w) ∧ (ls_open s = false ∨ ls_cnsp s = true ∨ clo)
  | QLeft | QRemove | QFlag => ls_open s = false ∧ ls_csock s = false ∧ ls_cnsp s = false ∧ PConnect ∉ w
  | _ => False
  end.
Record WI (own : room) (c : wstate) : Prop := {
  wi_adm : ∃ p, lf_calls (w_life c) !! 0 = Some (LcConnect own false, p) ∧ adm (closing c) p (lf_state (w_life c)) (w_wire c);
  wi_oth : ∀ i t p, lf_calls (w_life c) !! S i = Some (t, p) → pc_ok t p = true;
  wi_denied : PDenied ∉ w_wire c;
  wi_once : NoDup (filter (λ x, x ≠ PDisconnect) (w_wire c));
  wi_event : ∀ j, PEvent j ∈ w_wire c → ∃ t r, w_threads c !! j = Some (t, VEnd r);
  wi_handled : ∀ j t, w_threads c !! j = Some (t, VEnd WHandled) → PConnect ∈ w_wire c }.

Lemma adm_mono (P Q : Prop) p s s' w w' : adm P p s w → (P → Q) → (ls_open s' = true → ls_open s = true) → (ls_listed s' = true → ls_listed s = true) →
  (ls_connected s' = true → ls_connected s = true) → (ls_csock s' = true → ls_csock s = true) → (ls_cnsp s' = true → ls_cnsp s = true) →
  (ls_cnsp s = true → ls_cnsp s' = true ∨ Q) → (PConnect ∈ w' ↔ PConnect ∈ w) → adm Q p s' w'.
Proof.
  intros H HPQ Ho Hl Hc Hcs Hcn Hlost Hw.
  assert (F : ∀ b b' : bool, (b' = true → b = true) → b = false → b' = false) by (intros [] []; auto; intros H1; specialize (H1 eq_refl); discriminate).
  destruct p; cbn in *; try done; repeat match goal with H : _ ∧ _ |- _ => destruct H end;
    split_and!; try (eapply F; eassumption); try (rewrite Hw; assumption); try (rewrite Hw; by auto).
  - destruct H0 as [H0|H0]; [|by right; apply HPQ]. by apply Hlost.
  - destruct H0 as [H0|H0]; [|by right; apply HPQ]. by apply Hlost.
  - destruct H0 as [H0|[H0|H0]]; [left; by eapply F|right; by apply Hlost|right; right; by apply HPQ].
Qed.

Lemma lc_step_eq c i t p : lf_calls c !! i = Some (t, p) →
  lc_step c i = LConf (lc_step1 t p (lf_state c)).1.2 (<[i := (t, (lc_step1 t p (lf_state c)).1.1)]> (lf_calls c))
    (lf_log c ++ match (lc_step1 t p (lf_state c)).2 with Some e => [(i, e)] | None => [] end).
Proof. intros H. unfold lc_step. by rewrite H. Qed.
(** The step of a lifecycle call. *)
Lemma w_step_life c i t p : lf_calls (w_life c) !! i = Some (t, p) →
  w_step c (inl i) = WState (lc_step (w_life c) i) (w_threads c)
    (w_wire c ++ match (lc_step1 t p (lf_state (w_life c))).2 with Some e => match written e with Some x => [x] | None => [] end | None => [] end).
Proof.
  intros H. unfold w_step. rewrite (lc_step_eq _ _ _ _ H). cbn [lf_log]. rewrite drop_app.
  destruct (lc_step1 t p (lf_state (w_life c))).2 as [e|]; [|done]. cbn. by destruct (written e).
Qed.
Lemma w_step_none c i : lf_calls (w_life c) !! i = None → w_step c (inl i) = c.
Proof. intros H. unfold w_step, lc_step. rewrite H. rewrite drop_all. cbn. rewrite app_nil_r. by destruct c. Qed.

Lemma closing_insert c c' i t p p' : lf_calls (w_life c) !! i = Some (t, p) → (closes t → p' ≠ QStart) →
  lf_calls (w_life c') = <[i := (t, p')]> (lf_calls (w_life c)) → closing c → closing c'.
Proof.
  intros Hi Hne E (k & t1 & p1 & Hk & Hc & Hp). unfold closing. rewrite E. destruct (decide (k = i)) as [->|Hki].
  - rewrite Hi in Hk. injection Hk as -> ->. exists i, t1, p'. split_and!; [|done|by apply Hne].
    apply list_lookup_insert. by eapply lookup_lt_Some.
  - exists k, t1, p1. by rewrite list_lookup_insert_ne.
Qed.
Lemma NoDup_filter_app (w : list wpacket) x : NoDup (filter (λ x, x ≠ PDisconnect) w) → (x ≠ PDisconnect → x ∉ w) →
  NoDup (filter (λ x, x ≠ PDisconnect) (w ++ [x])).
Proof.
  intros H Hx. rewrite filter_app. destruct (decide (x = PDisconnect)) as [->|Hne].
  - rewrite filter_cons_False by (intros E; by apply E). by rewrite app_nil_r.
  - rewrite filter_cons_True by done. apply NoDup_app. split_and!; [done| |apply NoDup_singleton].
    intros y Hy ->%elem_of_list_singleton. apply elem_of_list_filter in Hy as [_ Hy]. by apply (Hx Hne).
Qed.

(** Steps of the admission. *)
Definition new_packet (e : option lev) : list wpacket := match e with Some e => match written e with Some x => [x] | None => [] end | None => [] end.
Lemma adm_step (P Q : Prop) own p s w : adm P p s w → (P → Q) →
  adm Q (lc_step1 (LcConnect own false) p s).1.1 (lc_step1 (LcConnect own false) p s).1.2 (w ++ new_packet (lc_step1 (LcConnect own false) p s).2).
Proof.
  intros H HPQ. destruct s as [op co ca ro li cs cn]. destruct p; cbn in *; try done; repeat case_match; cbn in *; subst; rewrite ?app_nil_r;
    repeat match goal with H : _ ∧ _ |- _ => destruct H end; split_and!; try done; try tauto; try (intros _; apply elem_of_app; right; by left); try (by left); try (intros ?; congruence).
Qed.
Lemma adm_event own p s w P : adm P p s w →
  (lc_step1 (LcConnect own false) p s).2 = None ∨ (∃ e, (lc_step1 (LcConnect own false) p s).2 = Some e ∧ written e = None) ∨
  ((lc_step1 (LcConnect own false) p s).2 = Some VPacket ∧ p = QPacket ∧ PConnect ∉ w).
Proof.
  intros H. destruct s as [op co ca ro li cs cn]. destruct p; cbn in *; try done; try (by left); repeat case_match; try (by left).
  - right; right. split_and!; try done. apply H.
  - right; left. by eexists.
  - right; left. by eexists.
Qed.

Lemma fmap_start_lookup (ts : list lcall) i t p : ((λ t, (t, QStart)) <$> ts) !! i = Some (t, p) → ts !! i = Some t ∧ p = QStart.
Proof. intros H. apply list_lookup_fmap_Some in H as (t1 & H & E). by injection E as -> ->. Qed.

(** Steps of the other goroutines: where the thread goes, what is written, what is started. *)
Inductive thread_step (c : wstate) (j : nat) : wstate → Prop :=
  | ts_none : w_threads c !! j = None ∨ (∃ t r, w_threads c !! j = Some (t, VEnd r)) → thread_step c j c
  | ts_goto t p p' : w_threads c !! j = Some (t, p) → (∀ r, p ≠ VEnd r) → p ≠ VSend → p' ≠ VEnd WHandled → p' ≠ VEnd WRefused → p' ≠ VEnd WSent →
      (p' = VSend → (p = VLook ∧ ls_listed (lf_state (w_life c)) = true) ∨ t = WEmit ∧ p = VStart) →
      thread_step c j (w_goto j t p' c)
  | ts_send t : w_threads c !! j = Some (t, VSend) →
      thread_step c j (WState (w_life c) (<[j := (t, VEnd WSent)]> (w_threads c)) (w_wire c ++ if ls_open (lf_state (w_life c)) then [PEvent j] else []))
  | ts_handled bye : w_threads c !! j = Some (WIn bye, VStart) → ls_open (lf_state (w_life c)) = true → ls_cnsp (lf_state (w_life c)) = true →
      thread_step c j (WState (if bye then spawn LcPacket QStart (w_life c) else w_life c) (<[j := (WIn bye, VEnd WHandled)]> (w_threads c)) (w_wire c))
  | ts_refused bye : w_threads c !! j = Some (WIn bye, VStart) → ls_open (lf_state (w_life c)) = true → ls_cnsp (lf_state (w_life c)) = false →
      thread_step c j (WState (spawn LcDisconnectAll QReady (w_life c)) (<[j := (WIn bye, VEnd WRefused)]> (w_threads c)) (w_wire c)).
Lemma step_thread c j : thread_step c j (w_step c (inr j)).
Proof.
  unfold w_step. cbv zeta. destruct (w_threads c !! j) as [[t p]|] eqn:Hj; [|by apply ts_none; left].
  destruct p as [| | |r].
  - destruct t as [r| |bye].
    + eapply ts_goto; [exact Hj|..]; destruct r; try case_bool_decide; done.
    + eapply ts_goto; [exact Hj|..]; destruct (ls_open (lf_state (w_life c))); try done. by right.
    + destruct (ls_open (lf_state (w_life c))) eqn:Ho; [|by eapply ts_goto].
      destruct (ls_cnsp (lf_state (w_life c))) eqn:Hc; [|exact (ts_refused c j bye Hj Ho Hc)]. pose proof (ts_handled c j bye Hj Ho Hc) as X. by destruct bye.
  - eapply ts_goto; [exact Hj|..]; destruct (ls_listed (lf_state (w_life c))); try done. by left.
  - exact (ts_send c j t Hj).
  - apply ts_none. right. eauto.
Qed.

Lemma closing_more c c' l : lf_calls (w_life c') = lf_calls (w_life c) ++ l → closing c → closing c'.
Proof. intros E (k & t & p & Hk & H). exists k, t, p. split; [|done]. rewrite E. by apply lookup_app_l_Some. Qed.
Lemma closing_eq c c' : lf_calls (w_life c') = lf_calls (w_life c) → closing c → closing c'.
Proof. intros E H. eapply (closing_more _ _ []); [|exact H]. by rewrite app_nil_r. Qed.

Lemma WI_thread own c j c' : WI own c → thread_step c j c' → WI own c'.
Proof.
  intros [(p0 & H0 & Ha) Hoth Hd Hn He Hh] Hstep.
  assert (Hother : ∀ (x : wcall * wpc) k v, (<[j := x]> (w_threads c)) !! k = Some v → (k = j ∧ v = x) ∨ k ≠ j ∧ w_threads c !! k = Some v).
  { intros x k v Hk. apply list_lookup_insert_Some in Hk as [(-> & <- & _)|[? ?]]; auto. }
  assert (Hc0 : PConnect ∈ w_wire c ∨ ls_cnsp (lf_state (w_life c)) = false ∨ ls_open (lf_state (w_life c)) = false).
  { destruct (ls_open (lf_state (w_life c))) eqn:Ho; [|by right; right]. destruct p0; cbn in Ha; try done; repeat match goal with H : _ ∧ _ |- _ => destruct H end; auto. }
  destruct Hstep as [Hx|t p p' Hj Hne Hns H1 H2 H3 H4|t Hj|bye Hj Ho Hc|bye Hj Ho Hc].
  - by split; eauto.
  - split; cbn; try done.
    + exists p0. split; [done|]. eapply adm_mono; eauto.
    + intros k Hk. destruct (He k Hk) as (t1 & r1 & Ht1). destruct (decide (k = j)) as [->|]; [|exists t1, r1; by rewrite list_lookup_insert_ne].
      rewrite Hj in Ht1. injection Ht1 as <- ->. by destruct (Hne r1).
    + intros k t1 [[-> E]|[_ Hk]]%Hother; [congruence|]. by eapply Hh.
  - split; cbn; try done.
    + exists p0. split; [done|]. eapply adm_mono; eauto. rewrite elem_of_app.
      destruct (ls_open (lf_state (w_life c))); [|by rewrite elem_of_nil; tauto]. rewrite elem_of_list_singleton. naive_solver.
    + destruct (ls_open (lf_state (w_life c))); [|by rewrite app_nil_r]. rewrite elem_of_app, elem_of_list_singleton. naive_solver.
    + destruct (ls_open (lf_state (w_life c))); [|by rewrite app_nil_r]. apply NoDup_filter_app; [done|]. intros _ Hin. destruct (He j Hin) as (? & ? & Hx). by rewrite Hj in Hx.
    + intros k Hk. destruct (decide (k = j)) as [->|]; [eexists _, _; apply list_lookup_insert; by eapply lookup_lt_Some|].
      rewrite list_lookup_insert_ne by done. apply He. apply elem_of_app in Hk as [Hk|Hk]; [done|]. destruct (ls_open (lf_state (w_life c))); [|by apply elem_of_nil in Hk].
      apply elem_of_list_singleton in Hk. congruence.
    + intros k t1 [[-> [= ->]]|[_ Hk]]%Hother. apply elem_of_app. left. by eapply Hh.
  - assert (∃ l, lf_calls (if bye then spawn LcPacket QStart (w_life c) else w_life c) = lf_calls (w_life c) ++ l ∧ Forall (λ x, pc_ok x.1 x.2 = true) l) as (l & El & Hl).
    { destruct bye; [exists [(LcPacket, QStart)]|exists []]; cbn; rewrite ?app_nil_r; split; auto. }
    assert (Es : lf_state (if bye then spawn LcPacket QStart (w_life c) else w_life c) = lf_state (w_life c)) by by destruct bye.
    split; cbn [w_life w_threads w_wire]; try done.
    + exists p0. rewrite El, Es. split; [by apply lookup_app_l_Some|]. eapply adm_mono; eauto. intros; by apply (closing_more c _ l).
    + intros i t p. rewrite El. intros [Hi|[_ Hi]]%lookup_app_Some; [by eapply Hoth|]. rewrite Forall_forall in Hl. apply (Hl (t, p)). by eapply elem_of_list_lookup_2.
    + intros k Hk. destruct (decide (k = j)) as [->|]; [eexists _, _; apply list_lookup_insert; by eapply lookup_lt_Some|].
      rewrite list_lookup_insert_ne by done. by apply He.
    + intros k t1 [[-> [= ->]]|[_ Hk]]%Hother; [|by eapply Hh]. destruct Hc0 as [?|[?|?]]; [done|congruence|congruence].
  - split; cbn; try done.
    + exists p0. split; [by apply lookup_app_l_Some|]. eapply adm_mono; eauto. by intros; apply (closing_more c _ [(LcDisconnectAll, QReady)]).
    + intros i t p [Hi|[_ Hi]]%lookup_app_Some; [by eapply Hoth|]. apply list_lookup_singleton_Some in Hi as [_ [= <- <-]]. done.
    + intros k Hk. destruct (decide (k = j)) as [->|]; [eexists _, _; apply list_lookup_insert; by eapply lookup_lt_Some|].
      rewrite list_lookup_insert_ne by done. by apply He.
    + intros k t1 [[-> [= ->]]|[_ Hk]]%Hother. by eapply Hh.
Qed.

Lemma WI_life own c i : WI own c → WI own (w_step c (inl i)).
Proof.
  intros [(p0 & H0 & Ha) Hoth Hd Hn He Hh]. destruct (lf_calls (w_life c) !! i) as [[t p]|] eqn:Hi.
  2: { rewrite w_step_none by done. split; eauto. }
  rewrite (w_step_life _ _ _ _ Hi). fold (new_packet (lc_step1 t p (lf_state (w_life c))).2).
  assert (Ecalls : lf_calls (lc_step (w_life c) i) = <[i := (t, (lc_step1 t p (lf_state (w_life c))).1.1)]> (lf_calls (w_life c))) by by rewrite (lc_step_eq _ _ _ _ Hi).
  assert (Estate : lf_state (lc_step (w_life c) i) = (lc_step1 t p (lf_state (w_life c))).1.2) by by rewrite (lc_step_eq _ _ _ _ Hi).
  assert (Hlen := lookup_lt_Some _ _ _ Hi).
  destruct i as [|i].
  - rewrite H0 in Hi. injection Hi as <- <-.
    assert (Hw : new_packet (lc_step1 (LcConnect own false) p0 (lf_state (w_life c))).2 = [] ∨
      new_packet (lc_step1 (LcConnect own false) p0 (lf_state (w_life c))).2 = [PConnect] ∧ PConnect ∉ w_wire c).
    { destruct (adm_event own _ _ _ _ Ha) as [E|[(e & E & E1)|(E & _ & E1)]]; rewrite E; cbn; [by left|rewrite E1; by left|by right]. }
    split; cbn [w_life w_threads w_wire].
    + eexists. rewrite Ecalls, Estate. split; [by apply list_lookup_insert|]. eapply adm_step; [exact Ha|].
      intros Hcl. eapply (closing_insert c _ 0); [exact H0|by intros []|exact Ecalls|done].
    + intros k t p. rewrite Ecalls, list_lookup_insert_ne by done. apply Hoth.
    + destruct Hw as [->|[-> _]]; [by rewrite app_nil_r|]. rewrite elem_of_app, elem_of_list_singleton. intros [?|?]; done.
    + destruct Hw as [->|[-> Hw]]; [by rewrite app_nil_r|]. by apply NoDup_filter_app.
    + intros j Hj. apply He. apply elem_of_app in Hj as [Hj|Hj]; [done|]. destruct Hw as [E|[E _]]; rewrite E in Hj; [by apply elem_of_nil in Hj|].
      by apply elem_of_list_singleton in Hj.
    + intros j t Hj. apply elem_of_app. left. by eapply Hh.
  - pose proof (step_other t p (lf_state (w_life c)) (Hoth _ _ _ Hi)) as [Opc Obeg Oop Oli Oco Ocs Ocn Olost [Oe1 Oe2] Ole Owr].
    assert (Hw : new_packet (lc_step1 t p (lf_state (w_life c))).2 = [] ∨ new_packet (lc_step1 t p (lf_state (w_life c))).2 = [PDisconnect]).
    { destruct (lc_step1 t p (lf_state (w_life c))).2 as [[]|]; cbn; auto; done. }
    assert (Hcl : closing c → closing (WState (lc_step (w_life c) (S i)) (w_threads c) (w_wire c ++ new_packet (lc_step1 t p (lf_state (w_life c))).2))).
    { intros Hcl. by eapply (closing_insert c _ (S i)). }
    assert (Hin : ∀ x, x ≠ PDisconnect → x ∈ w_wire c ++ new_packet (lc_step1 t p (lf_state (w_life c))).2 ↔ x ∈ w_wire c).
    { intros x Hx. destruct Hw as [->| ->]; [by rewrite app_nil_r|]. rewrite elem_of_app, elem_of_list_singleton. tauto. }
    split; cbn [w_life w_threads w_wire].
    + exists p0. rewrite Ecalls, Estate, list_lookup_insert_ne by done. split; [done|]. eapply adm_mono; eauto.
      intros E. destruct (Olost E) as [?|[Hc Hp]]; [by left|]. right. apply Hcl. exists (S i), t, p. done.
    + intros k t1 p1. rewrite Ecalls. intros [(<- & [= <- <-] & _)|[_ Hk]]%list_lookup_insert_Some; [done|]. by eapply Hoth.
    + by rewrite Hin.
    + destruct Hw as [->| ->]; [by rewrite app_nil_r|]. by apply NoDup_filter_app.
    + intros j Hj. apply He. by apply Hin.
    + intros j t1 Hj. apply Hin; [done|]. by eapply Hh.
Qed.
Lemma WI_step own c l : WI own c → WI own (w_step c l).
Proof. destruct l as [i|j]; intros H; [by apply WI_life|]. eapply WI_thread; [done|]. apply step_thread. Qed.

Lemma WI_init own s ts ws : fresh s → Forall (λ t, ¬ admits t) ts → WI own (w_run s (LcConnect own false :: ts) ws []).
Proof.
  intros (H1 & H2 & H3 & H4 & H5) Hts. unfold w_run. cbn [foldl]. split; cbn [w_life w_threads w_wire lf_calls lf_state]; try (by intros ? ?%elem_of_nil); try apply not_elem_of_nil; try apply NoDup_nil_2.
  - exists QStart. split; [done|]. cbn. split_and!; try done. apply not_elem_of_nil.
  - intros i t p Hi. apply fmap_start_lookup in Hi as [Hi ->]. cbn in Hi. rewrite Forall_forall in Hts. specialize (Hts t (elem_of_list_lookup_2 _ _ _ Hi)). by destruct t.
  - intros j t Hj. apply list_lookup_fmap_Some in Hj as (? & _ & E). done.
Qed.
Lemma w_run_snoc s ts ws l x : w_run s ts ws (l ++ [x]) = w_step (w_run s ts ws l) x.
Proof. unfold w_run. by rewrite foldl_app. Qed.
Lemma WI_run own s ts ws sched : fresh s → Forall (λ t, ¬ admits t) ts → WI own (w_run s (LcConnect own false :: ts) ws sched).
Proof. intros Hs Hts. induction sched as [|x sched IH] using rev_ind; [by apply WI_init|]. rewrite w_run_snoc. by apply WI_step. Qed.

Lemma admission_unique c p q : admission_at c p → admission_at c q → p = q.
Proof. intros [t H] [t1 H1]. rewrite H in H1. by injection H1 as _ ->. Qed.
Lemma run_handled own s ts ws sched j b : fresh s → Forall (λ t, ¬ admits t) ts →
  let c := w_run s (LcConnect own false :: ts) ws sched in
  w_threads c !! j = Some (WIn b, VStart) → is_open c → admitted c → ¬ closing c → handled (w_step c (inr j)) j.
Proof.
  intros Hs Hts c Hj Ho Had Hcl. destruct (WI_run own s ts ws sched Hs Hts) as [(p & H0 & Ha) _ _ _ _ _]. fold c in H0, Ha.
  assert (Hc : ls_cnsp (lf_state (w_life c)) = true).
  { unfold is_open in Ho. destruct Had as [[t E]|[[t E]|[t E]]]; rewrite H0 in E; injection E as _ ->; cbn in Ha.
    - by destruct Ha as [_ [?|?]].
    - by destruct Ha as [_ [?|?]].
    - destruct Ha as [_ [?|[?|?]]]; [congruence|done|done]. }
  unfold handled. exists (WIn b). unfold is_open in Ho. unfold w_step. cbv zeta. rewrite Hj, Ho, Hc.
  destruct b; cbn; apply list_lookup_insert; by eapply lookup_lt_Some.
Qed.
Lemma run_known own s ts ws sched j : fresh s → Forall (λ t, ¬ admits t) ts →
  let c := w_run s (LcConnect own false :: ts) ws sched in handled c j → PConnect ∈ w_wire c.
Proof. intros Hs Hts c [t Hj]. by apply (wi_handled _ _ (WI_run own s ts ws sched Hs Hts) j t). Qed.
Lemma run_once own s ts ws sched : fresh s → Forall (λ t, ¬ admits t) ts →
  let c := w_run s (LcConnect own false :: ts) ws sched in NoDup (filter (λ x, x ≠ PDisconnect) (w_wire c)) ∧ PDenied ∉ w_wire c.
Proof. intros Hs Hts c. split; [apply (wi_once own)|apply (wi_denied own)]; by apply WI_run. Qed.

(** A property of a point of the schedule. *)
Definition at_step (s : lstate) (ts : list lcall) (ws : list wcall) (sched : list (nat + nat)) (l : nat + nat) (P : wstate → Prop) : Prop :=
  ∃ l1 l2, sched = l1 ++ l :: l2 ∧ P (w_run s ts ws l1).
Lemma at_step_app s ts ws sched x l P : at_step s ts ws sched l P → at_step s ts ws (sched ++ [x]) l P.
Proof. intros (l1 & l2 & -> & H). exists l1, (l2 ++ [x]). split; [|done]. by rewrite <-app_assoc. Qed.
Lemma at_step_last s ts ws sched l (P : wstate → Prop) : P (w_run s ts ws sched) → at_step s ts ws (sched ++ [l]) l P.
Proof. intros H. by exists sched, []. Qed.

Lemma thread_other c l k : l ≠ inr k → w_threads (w_step c l) !! k = w_threads c !! k.
Proof.
  intros Hl. destruct l as [i|j]; [done|]. assert (Hne : j ≠ k) by congruence.
  destruct (step_thread c j); cbn; try done; by rewrite list_lookup_insert_ne.
Qed.
(** What a packet of the client met. *)
Lemma run_refused_at s ts ws sched j t : w_threads (w_run s ts ws sched) !! j = Some (t, VEnd WRefused) →
  at_step s ts ws sched (inr j) (λ c, ls_open (lf_state (w_life c)) = true ∧ ls_cnsp (lf_state (w_life c)) = false ∧ ∃ b, w_threads c !! j = Some (WIn b, VStart)).
Proof.
  induction sched as [|x sched IH] using rev_ind.
  { unfold w_run. cbn. intros Hj. apply list_lookup_fmap_Some in Hj as (? & _ & E). done. }
  rewrite w_run_snoc. intros Hj. destruct (decide (x = inr j)) as [->|Hx].
  2: { rewrite thread_other in Hj by done. apply at_step_app. by apply IH. }
  pose proof (step_thread (w_run s ts ws sched) j) as St. revert Hj St. generalize (w_step (w_run s ts ws sched) (inr j)). intros c' Hj St.
  destruct St as [Hx|t1 p p' Hk Hne Hns H1 H2 H3 H4|t1 Hk|bye Hk Ho Hc|bye Hk Ho Hc].
  - apply at_step_app. by apply IH.
  - exfalso. unfold w_goto in Hj. cbn in Hj. rewrite list_lookup_insert in Hj by (by eapply lookup_lt_Some). congruence.
  - exfalso. cbn in Hj. rewrite list_lookup_insert in Hj by (by eapply lookup_lt_Some). congruence.
  - exfalso. cbn in Hj. rewrite list_lookup_insert in Hj by (by eapply lookup_lt_Some). congruence.
  - apply at_step_last. split_and!; [done|done|by eexists].
Qed.
Lemma run_window own s ts ws sched j : fresh s → Forall (λ t, ¬ admits t) ts → polite s (LcConnect own false :: ts) ws sched →
  refused (w_run s (LcConnect own false :: ts) ws sched) j →
  ∃ l1 l2, sched = l1 ++ inr j :: l2 ∧ let c := w_run s (LcConnect own false :: ts) ws l1 in
    is_open c ∧ (admission_at c QTable ∨ admission_at c QNsps ∨ closing c).
Proof.
  intros Hs Hts Hpol [t Hj]. apply run_refused_at in Hj as (l1 & l2 & E & Ho & Hc & b & Hb). exists l1, l2. split; [done|]. cbv zeta. split; [done|].
  pose proof (Hpol _ _ _ _ _ E Hb) as Hin. destruct (WI_run own s ts ws l1 Hs Hts) as [(p & H0 & Ha) _ _ _ _ _].
  unfold admission_at. destruct p; cbn in Ha; try done; repeat match goal with H : _ ∧ _ |- _ => destruct H end; try done; try (by left; eexists); try (by right; left; eexists);
    right; right; repeat match goal with H : _ ∨ _ |- _ => destruct H end; try done; congruence.
Qed.

(** Before CONNECT. *)
Lemma WI_silent own c : WI own c → PConnect ∉ w_wire c → ls_open (lf_state (w_life c)) = true →
  ls_csock (lf_state (w_life c)) = false ∧ ls_cnsp (lf_state (w_life c)) = false.
Proof.
  intros [(p & _ & Ha) _ _ _ _ _] Hn Ho. destruct p; cbn in Ha; try done; repeat match goal with H : _ ∧ _ |- _ => destruct H end; auto; exfalso; auto.
Qed.
Record FI (c : wstate) : Prop := {
  fi_in : PConnect ∈ w_wire c → ∃ l, w_wire c = PConnect :: l;
  fi_out : PConnect ∉ w_wire c → w_wire c = [] ∧ (ls_open (lf_state (w_life c)) = true →
    (∀ i t p, lf_calls (w_life c) !! i = Some (t, p) → writes_pc p = false) ∧ ∀ j t, w_threads c !! j ≠ Some (t, VSend)) }.
Lemma FI_in c c' l : FI c → PConnect ∈ w_wire c → w_wire c' = w_wire c ++ l → FI c'.
Proof.
  intros [Hi _] Hin E. destruct (Hi Hin) as [l1 E1]. split; rewrite E, E1.
  - intros _. by exists (l1 ++ l).
  - intros H. exfalso. apply H. by left.
Qed.
Lemma FI_life own c i : WI own c → FI c → (PConnect ∉ w_wire c → ¬ disturbs c (inl i)) → FI (w_step c (inl i)).
Proof.
  intros Hwi Hfi Hd. destruct (lf_calls (w_life c) !! i) as [[t p]|] eqn:Hi; [|by rewrite w_step_none].
  pose proof (WI_step own c (inl i) Hwi) as Hwi'. revert Hwi'.
  rewrite (w_step_life _ _ _ _ Hi). fold (new_packet (lc_step1 t p (lf_state (w_life c))).2). intros Hwi'.
  destruct (decide (PConnect ∈ w_wire c)) as [Hin|Hin]; [by eapply FI_in|].
  destruct (fi_out _ Hfi Hin) as [Ew Hq]. specialize (Hd Hin).
  pose proof Hwi as [(p0 & H0 & Ha) Hoth _ _ _ _].
  assert (Ecalls : lf_calls (lc_step (w_life c) i) = <[i := (t, (lc_step1 t p (lf_state (w_life c))).1.1)]> (lf_calls (w_life c))) by by rewrite (lc_step_eq _ _ _ _ Hi).
  assert (Estate : lf_state (lc_step (w_life c) i) = (lc_step1 t p (lf_state (w_life c))).1.2) by by rewrite (lc_step_eq _ _ _ _ Hi).
  assert (Hlen := lookup_lt_Some _ _ _ Hi).
  assert (Hopen : ls_open (lc_step1 t p (lf_state (w_life c))).1.2 = true → ls_open (lf_state (w_life c)) = true).
  { destruct i; [|by apply step_other, (Hoth i)]. rewrite H0 in Hi. injection Hi as <- <-. destruct p0; cbn in *; try done. }
  destruct (decide (PConnect ∈ new_packet (lc_step1 t p (lf_state (w_life c))).2)) as [Hp|Hp].
  { split; cbn [w_wire]; rewrite Ew; cbn.
    - intros _. destruct (lc_step1 t p (lf_state (w_life c))).2 as [[]|]; cbn in Hp; try (by apply elem_of_nil in Hp); try (by apply elem_of_list_singleton in Hp). by eexists.
    - by intros H. }
  assert (En : new_packet (lc_step1 t p (lf_state (w_life c))).2 = []).
  { destruct i as [|i].
    - rewrite H0 in Hi. injection Hi as <- <-. destruct (adm_event own _ _ _ _ Ha) as [E|[(e & E & E1)|(E & _ & E1)]]; rewrite E in Hp |- *; cbn; [done|by rewrite E1|].
      exfalso. apply Hp. by left.
    - pose proof (step_other t p (lf_state (w_life c)) (Hoth _ _ _ Hi)) as [_ _ _ _ _ _ _ _ [Oe1 Oe2] Ole _].
      destruct (lc_step1 t p (lf_state (w_life c))).2 as [[]|] eqn:E; cbn; try done. destruct (Ole eq_refl) as [Hwr Ho]. destruct (Hq Ho) as [Hq1 _].
      rewrite (Hq1 _ _ _ Hi) in Hwr. done. }
  split; cbn [w_wire w_life w_threads]; rewrite En, app_nil_r; [done|]. intros _. split; [done|]. rewrite Estate, Ecalls. intros Ho%Hopen.
  destruct (Hq Ho) as [Hq1 Hq2]. split; [|done]. intros k t1 p1 [(<- & [= <- <-] & _)|[_ Hk]]%list_lookup_insert_Some; [|by eapply Hq1].
  destruct i as [|i].
  - destruct Hwi' as [(p0' & H0' & Ha') _ _ _ _ _]. cbn [w_life] in H0', Ha'. rewrite Ecalls, list_lookup_insert in H0' by done. injection H0' as -> <-.
    revert Ha'. generalize (lc_step1 (LcConnect own false) p (lf_state (w_life c))).1.1. intros p'. destruct p'; cbn; done.
  - pose proof (os_writes _ _ _ _ _ _ (step_other t p (lf_state (w_life c)) (Hoth _ _ _ Hi))) as Hwr.
    destruct (writes_pc _) eqn:E; [|done]. destruct (Hwr eq_refl) as [E1|[[-> ->]|E1]].
    + by rewrite (Hq1 _ _ _ Hi) in E1.
    + by destruct Hd.
    + destruct (WI_silent own c Hwi Hin Ho) as [E2 _]. congruence.
Qed.
Lemma FI_thread own c j : WI own c → FI c → (PConnect ∉ w_wire c → ¬ disturbs c (inr j)) → FI (w_step c (inr j)).
Proof.
  intros Hwi Hfi Hd. destruct (decide (PConnect ∈ w_wire c)) as [Hin|Hin].
  { destruct (step_thread c j); [done|..]; cbn; eapply FI_in; try done; cbn; by rewrite ?app_nil_r. }
  destruct (fi_out _ Hfi Hin) as [Ew Hq]. specialize (Hd Hin). pose proof (WI_silent own c Hwi Hin) as Hsil.
  assert (Hother : ∀ (x : wcall * wpc) k v, (<[j := x]> (w_threads c)) !! k = Some v → v = x ∨ w_threads c !! k = Some v).
  { intros x k v Hk. apply list_lookup_insert_Some in Hk as [(-> & <- & _)|[? ?]]; auto. }
  destruct (step_thread c j) as [Hx|t p p' Hj Hne Hns H1 H2 H3 H4|t Hj|bye Hj Ho Hc|bye Hj Ho Hc]; [done|..].
  - split; cbn; [done|]. intros _. split; [done|]. intros Ho. destruct (Hq Ho) as [Hq1 Hq2]. split; [done|].
    intros k t1 [E|Hk]%Hother; [|by eapply Hq2]. injection E as -> <-. apply Hd. cbn. destruct (H4 eq_refl) as [[-> _]|[-> ->]]; [left; by eexists|by right].
  - destruct (ls_open (lf_state (w_life c))) eqn:Ho; [by destruct (proj2 (Hq eq_refl) j t)|]. split; cbn; rewrite app_nil_r; [done|]. intros _. split; [done|]. congruence.
  - destruct (Hsil Ho). congruence.
  - split; cbn; [done|]. intros _. split; [done|]. intros _. destruct (Hq Ho) as [Hq1 Hq2]. split.
    + intros i t p [Hi|[_ Hi]]%lookup_app_Some; [by eapply Hq1|]. apply list_lookup_singleton_Some in Hi as [_ [= <- <-]]. done.
    + intros k t1 [E|Hk]%Hother; [done|]. by eapply Hq2.
Qed.
Lemma FI_run own s ts ws sched : fresh s → Forall (λ t, ¬ admits t) ts → undisturbed s (LcConnect own false :: ts) ws sched →
  FI (w_run s (LcConnect own false :: ts) ws sched).
Proof.
  intros Hs Hts. induction sched as [|x sched IH] using rev_ind; intros Hu.
  - unfold w_run. cbn [foldl]. split; cbn [w_wire w_life w_threads lf_calls lf_state]; [by intros ?%elem_of_nil|]. intros _. split; [done|]. intros _. split.
    + intros i t p Hi. by apply fmap_start_lookup in Hi as [_ ->].
    + intros j t Hj. apply list_lookup_fmap_Some in Hj as (? & _ & E). done.
  - rewrite w_run_snoc. assert (FI (w_run s (LcConnect own false :: ts) ws sched)) as Hfi.
    { apply IH. intros l1 l l2 ->. apply (Hu l1 l (l2 ++ [x])). by rewrite <-app_assoc. }
    pose proof (Hu sched x [] eq_refl) as Hd. pose proof (WI_run own s ts ws sched Hs Hts) as Hwi.
    destruct x; [by eapply FI_life|by eapply FI_thread].
Qed.
Lemma run_first own s ts ws sched : fresh s → Forall (λ t, ¬ admits t) ts → undisturbed s (LcConnect own false :: ts) ws sched →
  w_wire (w_run s (LcConnect own false :: ts) ws sched) = [] ∨ ∃ l, w_wire (w_run s (LcConnect own false :: ts) ws sched) = PConnect :: l.
Proof.
  intros Hs Hts Hu. pose proof (FI_run own s ts ws sched Hs Hts Hu) as [Hi Ho].
  destruct (decide (PConnect ∈ w_wire (w_run s (LcConnect own false :: ts) ws sched))); [right|left]; [by apply Hi|by apply Ho].
Qed.

(** After the socket has left the table of the namespace. *)
Record LI (c1 c : wstate) : Prop := {
  li_past : ∃ p, admission_at c p ∧ p ≠ QStart ∧ p ≠ QStore;
  li_listed : ls_listed (lf_state (w_life c)) = false;
  li_send : ∀ j t, w_threads c !! j = Some (t, VSend) → (∃ t, w_threads c1 !! j = Some (t, VSend)) ∨ ∃ p, w_threads c1 !! j = Some (WEmit, p);
  li_call : ∀ j t p, w_threads c !! j = Some (t, p) → ∃ p1, w_threads c1 !! j = Some (t, p1);
  li_event : ∀ j, PEvent j ∈ w_wire c → PEvent j ∈ w_wire c1 ∨ (∃ t, w_threads c1 !! j = Some (t, VSend)) ∨ ∃ p, w_threads c1 !! j = Some (WEmit, p) }.
Lemma LI_life own c1 c i : WI own c → LI c1 c → LI c1 (w_step c (inl i)).
Proof.
  intros Hwi Hli. destruct (lf_calls (w_life c) !! i) as [[t p]|] eqn:Hi; [|by rewrite w_step_none].
  destruct Hli as [(q & [tq Hq] & Hq1 & Hq2) Hl Hs Hc He]. pose proof Hwi as [(p0 & H0 & Ha) Hoth _ _ _ _].
  rewrite H0 in Hq. injection Hq as <- <-.
  rewrite (w_step_life _ _ _ _ Hi). fold (new_packet (lc_step1 t p (lf_state (w_life c))).2).
  assert (Ecalls : lf_calls (lc_step (w_life c) i) = <[i := (t, (lc_step1 t p (lf_state (w_life c))).1.1)]> (lf_calls (w_life c))) by by rewrite (lc_step_eq _ _ _ _ Hi).
  assert (Estate : lf_state (lc_step (w_life c) i) = (lc_step1 t p (lf_state (w_life c))).1.2) by by rewrite (lc_step_eq _ _ _ _ Hi).
  assert (Hlen := lookup_lt_Some _ _ _ Hi).
  split; cbn [w_life w_threads w_wire]; try done.
  - destruct i as [|i].
    + rewrite H0 in Hi. injection Hi as <- <-. exists (lc_step1 (LcConnect own false) p0 (lf_state (w_life c))).1.1. split.
      * eexists. cbn. rewrite Ecalls. by apply list_lookup_insert.
      * destruct p0; cbn in *; try done; repeat case_match; done.
    + exists p0. split; [|done]. eexists. cbn. by rewrite Ecalls, list_lookup_insert_ne.
  - rewrite Estate. destruct i as [|i].
    + rewrite H0 in Hi. injection Hi as <- <-. destruct p0; cbn in *; try done; by repeat case_match.
    + apply not_true_iff_false. intros E. apply (os_listed _ _ _ _ _ _ (step_other t p (lf_state (w_life c)) (Hoth _ _ _ Hi))) in E. congruence.
  - intros j Hj. apply He. apply elem_of_app in Hj as [Hj|Hj]; [done|].
    destruct (lc_step1 t p (lf_state (w_life c))).2 as [[]|]; cbn in Hj; try (by apply elem_of_nil in Hj); by apply elem_of_list_singleton in Hj.
Qed.
Lemma LI_thread c1 c j : LI c1 c → LI c1 (w_step c (inr j)).
Proof.
  intros [(q & [tq Hq] & Hq1) Hl Hs Hc He].
  assert (Hother : ∀ (x : wcall * wpc) k v, (<[j := x]> (w_threads c)) !! k = Some v → (k = j ∧ v = x) ∨ k ≠ j ∧ w_threads c !! k = Some v).
  { intros x k v Hk. apply list_lookup_insert_Some in Hk as [(-> & <- & _)|[? ?]]; auto. }
  destruct (step_thread c j) as [Hx|t p p' Hj Hne Hns H1 H2 H3 H4|t Hj|bye Hj Ho Hcn|bye Hj Ho Hcn].
  - split; eauto. exists q. split; [by eexists|done].
  - split; cbn [w_goto w_life w_threads w_wire]; try done.
    + exists q. split; [by eexists|done].
    + intros k t1 [[-> E]|[_ Hk]]%Hother; [|by eapply Hs]. injection E as -> <-. destruct (H4 eq_refl) as [[-> E]|[-> ->]]; [congruence|].
      right. by eapply Hc.
    + intros k t1 p1 [[-> E]|[_ Hk]]%Hother; [|by eapply Hc]. injection E as -> ->. by eapply Hc.
  - split; cbn [w_life w_threads w_wire]; try done.
    + exists q. split; [by eexists|done].
    + intros k t1 [[-> E]|[_ Hk]]%Hother; [done|]. by eapply Hs.
    + intros k t1 p1 [[-> E]|[_ Hk]]%Hother; [|by eapply Hc]. injection E as -> ->. by eapply Hc.
    + intros k Hk. apply elem_of_app in Hk as [Hk|Hk]; [by apply He|]. destruct (ls_open (lf_state (w_life c))); [|by apply elem_of_nil in Hk].
      apply elem_of_list_singleton in Hk. injection Hk as ->. right. by eapply Hs.
  - assert (∃ l, lf_calls (if bye then spawn LcPacket QStart (w_life c) else w_life c) = lf_calls (w_life c) ++ l) as (l & El).
    { destruct bye; [exists [(LcPacket, QStart)]|exists []]; cbn; by rewrite ?app_nil_r. }
    split; cbn [w_life w_threads w_wire]; try done.
    + exists q. split; [|done]. exists tq. cbn. rewrite El. by apply lookup_app_l_Some.
    + by destruct bye.
    + intros k t1 [[-> E]|[_ Hk]]%Hother; [done|]. by eapply Hs.
    + intros k t1 p1 [[-> E]|[_ Hk]]%Hother; [|by eapply Hc]. injection E as -> ->. by eapply Hc.
  - split; cbn [w_life w_threads w_wire]; try done.
    + exists q. split; [|done]. exists tq. by apply lookup_app_l_Some.
    + intros k t1 [[-> E]|[_ Hk]]%Hother; [done|]. by eapply Hs.
    + intros k t1 p1 [[-> E]|[_ Hk]]%Hother; [|by eapply Hc]. injection E as -> ->. by eapply Hc.
Qed.
Lemma run_last own s ts ws l1 l2 j : fresh s → Forall (λ t, ¬ admits t) ts →
  let c1 := w_run s (LcConnect own false :: ts) ws l1 in
  ¬ before_store c1 → ¬ listed c1 → PEvent j ∈ w_wire (w_run s (LcConnect own false :: ts) ws (l1 ++ l2)) →
  PEvent j ∈ w_wire c1 ∨ (∃ t, w_threads c1 !! j = Some (t, VSend)) ∨ ∃ p, w_threads c1 !! j = Some (WEmit, p).
Proof.
  intros Hs Hts c1 Hb Hl. apply (li_event c1). induction l2 as [|x l2 IH] using rev_ind.
  - rewrite app_nil_r. fold c1. destruct (WI_run own s ts ws l1 Hs Hts) as [(p & H0 & _) _ _ _ _ _]. fold c1 in H0. split; eauto.
    + exists p. split; [by eexists|]. split; intros ->; apply Hb; [left|right]; by eexists.
    + by apply not_true_iff_false.
  - rewrite app_assoc, w_run_snoc. destruct x; [eapply LI_life; [by apply (WI_run own)|done]|by apply LI_thread].
Qed.

(** What became of a broadcast. *)
Definition bcast_done (s : lstate) (ts : list lcall) (ws : list wcall) (sched : list (nat + nat)) (j : nat) (r : option room) (p : wpc) : Prop :=
  match p with
  | VEnd WSent => is_open (w_run s ts ws sched) → PEvent j ∈ w_wire (w_run s ts ws sched)
  | VEnd WSkipped => at_step s ts ws sched (inr j) (λ c, ¬ matches c r ∨ ¬ listed c)
  | VEnd _ => False
  | _ => True
  end.
Lemma wire_grows c l : ∃ w, w_wire (w_step c l) = w_wire c ++ w.
Proof.
  destruct l as [i|j]; [by eexists|]. destruct (step_thread c j); cbn; try (exists []; by rewrite app_nil_r). by eexists.
Qed.
Lemma open_before own c l : WI own c → is_open (w_step c l) → is_open c.
Proof.
  intros Hwi. unfold is_open. destruct l as [i|j].
  - destruct (lf_calls (w_life c) !! i) as [[t p]|] eqn:Hi; [|by rewrite w_step_none]. rewrite (w_step_life _ _ _ _ Hi). cbn [w_life].
    rewrite (lc_step_eq _ _ _ _ Hi). cbn [lf_state]. destruct Hwi as [(p0 & H0 & Ha) Hoth _ _ _ _]. destruct i as [|i]; [|by apply step_other, (Hoth i)].
    rewrite H0 in Hi. injection Hi as <- <-. destruct p0; cbn in *; try done.
  - destruct (step_thread c j) as [| | |bye|]; try done; by destruct bye.
Qed.
Lemma run_bcast own s ts ws sched j r p : fresh s → Forall (λ t, ¬ admits t) ts →
  w_threads (w_run s (LcConnect own false :: ts) ws sched) !! j = Some (WBcast r, p) → bcast_done s (LcConnect own false :: ts) ws sched j r p.
Proof.
  intros Hs Hts. revert p. induction sched as [|x sched IH] using rev_ind; intros p Hj.
  { unfold w_run in Hj. cbn in Hj. apply list_lookup_fmap_Some in Hj as (? & _ & E). by injection E as _ ->. }
  pose proof (WI_run own s ts ws sched Hs Hts) as Hwi.
  assert (Hold : ∀ p, bcast_done s (LcConnect own false :: ts) ws sched j r p → bcast_done s (LcConnect own false :: ts) ws (sched ++ [x]) j r p).
  { intros [| | |[]]; cbn; try done; [by apply at_step_app|]. rewrite w_run_snoc. intros H Ho. destruct (wire_grows (w_run s (LcConnect own false :: ts) ws sched) x) as [w ->].
    apply elem_of_app. left. apply H. by eapply open_before. }
  destruct (decide (x = inr j)) as [->|Hx].
  2: { apply Hold, IH. rewrite w_run_snoc in Hj. by rewrite thread_other in Hj. }
  destruct (w_threads (w_run s (LcConnect own false :: ts) ws sched) !! j) as [[t1 p1]|] eqn:Hj1.
  2: { rewrite w_run_snoc in Hj. unfold w_step in Hj. rewrite Hj1 in Hj. congruence. }
  assert (Hlen := lookup_lt_Some _ _ _ Hj1).
  assert (t1 = WBcast r) as ->.
  { rewrite w_run_snoc in Hj. revert Hj. destruct (step_thread (w_run s (LcConnect own false :: ts) ws sched) j); cbn; rewrite ?list_lookup_insert by done; congruence. }
  destruct p1 as [| | |r1].
  - rewrite w_run_snoc in Hj. unfold w_step in Hj. cbv zeta in Hj. rewrite Hj1 in Hj. unfold w_goto in Hj. cbn [w_threads] in Hj. rewrite list_lookup_insert in Hj by done.
    injection Hj as <-. match goal with |- context [if ?b then _ else _] => destruct b eqn:E end; [done|]. apply at_step_last. left. unfold matches.
    destruct r as [r|]; [by apply bool_decide_eq_false in E|]. apply negb_false_iff, bool_decide_eq_true in E. tauto.
  - rewrite w_run_snoc in Hj. unfold w_step in Hj. cbv zeta in Hj. rewrite Hj1 in Hj. unfold w_goto in Hj. cbn [w_threads] in Hj. rewrite list_lookup_insert in Hj by done.
    injection Hj as <-. match goal with |- context [if ?b then _ else _] => destruct b eqn:E end; [done|]. apply at_step_last. right. unfold listed. congruence.
  - assert (p = VEnd WSent) as ->.
    { rewrite w_run_snoc in Hj. unfold w_step in Hj. cbv zeta in Hj. rewrite Hj1 in Hj. cbn [w_threads w_goto] in Hj. rewrite list_lookup_insert in Hj by done. congruence. }
    cbn. rewrite w_run_snoc. intros Ho. assert (Ho1 := open_before own _ _ Hwi Ho). unfold is_open in Ho1. unfold w_step. cbv zeta. rewrite Hj1, Ho1. cbn. apply elem_of_app. right. by left.
  - assert (p = VEnd r1) as ->; [|by apply Hold, IH].
    rewrite w_run_snoc in Hj. unfold w_step in Hj. rewrite Hj1 in Hj. congruence.
Qed.
Lemma run_reached own s ts ws sched j r x : fresh s → Forall (λ t, ¬ admits t) ts →
  let c := w_run s (LcConnect own false :: ts) ws sched in
  w_threads c !! j = Some (WBcast r, VEnd x) → is_open c →
  PEvent j ∈ w_wire c ∨ ∃ l1 l2, sched = l1 ++ inr j :: l2 ∧ (¬ matches (w_run s (LcConnect own false :: ts) ws l1) r ∨ ¬ listed (w_run s (LcConnect own false :: ts) ws l1)).
Proof.
  intros Hs Hts c Hj Ho. pose proof (run_bcast own s ts ws sched j r _ Hs Hts Hj) as H. destruct x; cbn in H; [right|left|done|done].
  - destruct H as (l1 & l2 & E & H). by exists l1, l2.
  - by apply H.
Qed.
