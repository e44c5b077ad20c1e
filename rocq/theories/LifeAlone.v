(** One closing call alone (C51). *)
From Verif Require Import Base LifeConc LifeConcSpec LifeConcProofs.

Definition al_reason (t : lcall) : string :=
  match t with LcTransport r => r | LcPacket => "client namespace disconnect" | LcShutdown => "server shutting down" | _ => "server namespace disconnect" end.
Definition al_cont (t : lcall) : lcont := match t with LcTransport _ => KClear | LcDisconnectAll | LcClient => KAll | _ => KEnd end.
Definition al_pre (t : lcall) : list lev := match t with LcDisconnect | LcDisconnectAll | LcClient => [VLeavePacket] | _ => [] end.
Definition al_trans (t : lcall) : bool := match t with LcTransport _ => true | _ => false end.
Definition al_ok (t : lcall) (p : lpc) (s : lstate) (l : list lev) : Prop :=
  match p with
  | QStart => settled s ∧ ls_open s = true ∧ l = []
  | QRange1 | QCheck1 => al_cont t = KAll ∧ settled s ∧ ls_open s = true ∧ l = []
  | QWrite k => al_cont t = k ∧ al_pre t = [VLeavePacket] ∧ settled s ∧ ls_open s = true ∧ l = []
  | QRange => if al_trans t then settled s ∧ l = [] else al_cont t = KAll ∧ ls_csock s = false ∧ l = farewell t
  | QOpen r k | QSay r k => r = al_reason t ∧ k = al_cont t ∧ settled s ∧ (al_trans t = false → ls_open s = true) ∧ l = al_pre t
  | QLeave r k | QUnlist r k | QNoJoin r k | QHas r k => r = al_reason t ∧ k = al_cont t ∧ ls_csock s = true ∧ (al_trans t = false → ls_open s = true) ∧ l = al_pre t ++ [VDisconnecting r]
  | QDrop r k | QDropNsp r k | QOff r k | QBye r k => r = al_reason t ∧ k = al_cont t ∧ (al_trans t = false → ls_open s = true) ∧ l = al_pre t ++ [VDisconnecting r]
  | QClear1 | QReady | QHang => al_cont t = KAll ∧ (p ≠ QClear1 → ls_csock s = false) ∧ ls_open s = true ∧ l = farewell t
  | QClear | QDone => l = farewell t
  | _ => False
  end.
Record alone (t : lcall) (c : lconf) : Prop := {
  al_first : ∃ p, lf_calls c !! 0 = Some (t, p) ∧ al_ok t p (lf_state c) (lf_log c).*2;
  al_rest : ∀ i u p, lf_calls c !! S i = Some (u, p) → ¬ admits u ∧ ¬ closes u ∧ match p with QStart | QAdd | QDone => True | _ => False end }.
Lemma al_own t p s l : closes t → al_ok t p s l → al_ok t (lc_step1 t p s).1.1 (lc_step1 t p s).1.2 (l ++ match (lc_step1 t p s).2 with Some e => [e] | None => [] end).
Proof.
  intros Hc H. destruct p; cbn in H; try done.
  - destruct H as ((H1 & H2 & H3 & H4 & H5) & Ho & ->). destruct t; try done; cbn; rewrite ?H1, ?H3; cbn; unfold settled; cbn; by rewrite ?H1, ?H2, ?H3, ?H4, ?H5.
  - destruct H as (Hk & Hp & Hs & Ho & ->). cbn. rewrite Ho. destruct t; try done; cbn; by split_and!.
  - destruct H as (Hk & Hs & Ho & ->). cbn. pose proof Hs as (_ & _ & _ & -> & _). cbn. by split_and!.
  - destruct H as (Hk & Hs & Ho & ->). cbn. pose proof Hs as (-> & _). cbn. destruct t; try done; by split_and!.
  - destruct H as (Hk & _ & Ho & ->). cbn. rewrite app_nil_r. by split_and!.
  - destruct H as (Hk & Hq & Ho & ->). cbn. rewrite Ho, app_nil_r. cbn. split_and!; [done| |done|done]. intros _. by apply Hq.
  - destruct H as (Hk & Hq & Ho & ->). cbn. rewrite app_nil_r. destruct t; try done; cbn; split_and!; try done; by apply Hq.
  - destruct t; try done; cbn in H; [destruct H as [Hs ->]; cbn; pose proof Hs as (_ & _ & _ & -> & _); cbn; by split_and!|..];
      destruct H as (Hk & Hq & ->); cbn; rewrite ?Hq; cbn; try done.
  - subst l. cbn. by rewrite app_nil_r.
  - destruct H as (-> & -> & Hs & Ho & ->). cbn. pose proof Hs as (-> & _). cbn. rewrite app_nil_r. by split_and!.
  - destruct H as (-> & -> & Hs & Ho & ->). cbn. destruct Hs as (_ & _ & _ & H4 & _). by split_and!.
  - destruct H as (-> & -> & Hs & Ho & ->). cbn. rewrite app_nil_r. by split_and!.
  - destruct H as (-> & -> & Hs & Ho & ->). cbn. rewrite app_nil_r. by split_and!.
  - destruct H as (-> & -> & Hs & Ho & ->). cbn. rewrite app_nil_r. by split_and!.
  - destruct H as (-> & -> & Hs & Ho & ->). cbn. rewrite Hs. cbn. rewrite app_nil_r. by split_and!.
  - destruct H as (-> & -> & Ho & ->). cbn. rewrite app_nil_r. by split_and!.
  - destruct H as (-> & -> & Ho & ->). cbn. rewrite app_nil_r. by split_and!.
  - destruct H as (-> & -> & Ho & ->). cbn. rewrite app_nil_r. by split_and!.
  - destruct H as (-> & -> & Ho & ->). destruct t; try done; cbn; try done; split_and!; try done; by apply Ho.
  - subst l. cbn. by rewrite app_nil_r.
Qed.
Lemma al_rooms t p s l v : al_ok t p s l → al_ok t p (set_rooms v s) l.
Proof. destruct p; done. Qed.
Lemma alone_step t c i : closes t → alone t c → alone t (lc_step c i).
Proof.
  intros Hct [(p & H0 & Hs) Hr]. destruct (lf_calls c !! i) as [[u q]|] eqn:Hi; [|unfold lc_step; rewrite Hi; split; eauto].
  destruct i as [|i].
  - rewrite H0 in Hi. injection Hi as <- <-. split.
    + exists (lc_step1 t p (lf_state c)).1.1. unfold lc_step. rewrite H0. cbn [lf_calls lf_state lf_log].
      rewrite list_lookup_insert by (by eapply lookup_lt_Some). split; [done|]. rewrite fmap_app. pose proof (al_own t p _ _ Hct Hs) as H. by destruct (lc_step1 t p (lf_state c)).2.
    + intros j u q Hj. apply (Hr j). unfold lc_step in Hj. rewrite H0 in Hj. cbn in Hj. by destruct (lf_calls c).
  - destruct (Hr i u q Hi) as (Ha & Hc & Hq). split.
    + exists p. unfold lc_step. rewrite Hi. cbn [lf_calls lf_state lf_log]. rewrite list_lookup_insert_ne by lia. split; [done|].
      destruct u; try (by cbn in *; tauto); destruct q; try done; cbn; rewrite ?app_nil_r; try done; by apply al_rooms.
    + intros j v q' (q'' & Hj & Hq')%step_lookup. destruct (Hr j v q'' Hj) as (Ha' & Hc' & Hq''). split; [done|]. split; [done|].
      destruct Hq' as [[[= ->] ->]| ->]; [|done]. rewrite Hi in Hj. injection Hj as <- <-.
      destruct u; try (by cbn in *; tauto); destruct q; try done; cbn; by destruct (ls_can _).
Qed.
Lemma c51_alone_l s ts sched t :
  settled s → ls_open s = true → Forall (λ t, ¬ admits t ∧ ¬ closes t) ts → closes t → returned (lc_run s (t :: ts) sched) →
  (lf_log (lc_run s (t :: ts) sched)).*2 = farewell t.
Proof.
  intros Hs Ho Hf Hc Hr.
  assert (HA : alone t (lc_run s (t :: ts) sched)).
  { unfold lc_run. clear Hr. induction sched as [|i l IH] using rev_ind; [|rewrite foldl_app; by apply alone_step].
    split; [by exists QStart|]. intros i u p. change (((λ t, (t, QStart)) <$> ts) !! i = Some (u, p) → ¬ admits u ∧ ¬ closes u ∧ match p with QStart | QAdd | QDone => True | _ => False end).
    rewrite list_lookup_fmap. destruct (ts !! i) as [x|] eqn:E; [|done]. intros [= <- <-]. rewrite Forall_forall in Hf. apply elem_of_list_lookup_2 in E. destruct (Hf x E). done. }
  destruct HA as [(p & Hp & H) _]. by rewrite (Hr 0 _ _ Hp) in H.
Qed.
