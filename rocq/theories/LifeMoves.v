(** A socket that nothing closes (C51): the rooms after concurrent calls of Join and Leave. *)
From Verif Require Import Base LifeConc LifeConcSpec LifeConcProofs LifeMore.

Record moves (s0 : lstate) (r : room) (c : lconf) : Prop := {
  mo_state : settled (lf_state c);
  mo_log : lf_log c = [];
  mo_calls : ∀ i t p, lf_calls c !! i = Some (t, p) → match t with LcJoin _ => p = QStart ∨ p = QAdd ∨ p = QDone | LcLeave _ => p = QStart ∨ p = QDone | _ => False end;
  mo_join : (∀ i p, lf_calls c !! i ≠ Some (LcLeave r, p)) → (r ∈ ls_rooms (lf_state c) ↔ r ∈ ls_rooms s0 ∨ ∃ i rs, lf_calls c !! i = Some (LcJoin rs, QDone) ∧ r ∈ rs);
  mo_leave : (∀ i rs p, lf_calls c !! i = Some (LcJoin rs, p) → r ∉ rs) → (r ∈ ls_rooms (lf_state c) ↔ r ∈ ls_rooms s0 ∧ ∀ i, lf_calls c !! i ≠ Some (LcLeave r, QDone)) }.
Lemma moves_step s0 r c i : moves s0 r c → moves s0 r (lc_step c i).
Proof.
  intros [Hs Hlog Hcs Hj Hl]. destruct (lf_calls c !! i) as [[t q]|] eqn:Hi; [|unfold lc_step; by rewrite Hi].
  pose proof (Hcs i t q Hi) as Hq. pose proof (lookup_lt_Some _ _ _ Hi) as Hlt. pose proof (calls_step c i t q Hi) as Hcalls. pose proof (step_state c i t q Hi) as Hst.
  assert (Hother : ∀ u p, (∃ j, lf_calls (lc_step c i) !! j = Some (u, p)) ↔ (∃ j, j ≠ i ∧ lf_calls c !! j = Some (u, p)) ∨ (t = u ∧ (lc_step1 t q (lf_state c)).1.1 = p)).
  { intros u p. rewrite Hcalls. split.
    - intros (j & Hp). destruct (decide (j = i)) as [->|Hn]; [rewrite list_lookup_insert in Hp by done; injection Hp; auto|]. rewrite list_lookup_insert_ne in Hp by done. eauto.
    - intros [(j & Hn & Hp)|[-> <-]]; [exists j; by rewrite list_lookup_insert_ne|]. exists i. by rewrite list_lookup_insert. }
  assert (Hsame : ∀ u p, (∃ j, lf_calls c !! j = Some (u, p)) ↔ (∃ j, j ≠ i ∧ lf_calls c !! j = Some (u, p)) ∨ (t = u ∧ q = p)).
  { intros u p. split; [|intros [(j & _ & Hp)|[-> ->]]; eauto]. intros (j & Hp). destruct (decide (j = i)) as [->|Hn]; [rewrite Hi in Hp; injection Hp; auto|eauto]. }
  assert (Hback : ∀ u, (∃ j p, lf_calls c !! j = Some (u, p)) → ∃ j p, lf_calls (lc_step c i) !! j = Some (u, p)).
  { intros u (j & p & Hp). rewrite Hcalls. destruct (decide (j = i)) as [->|Hn]; [|exists j, p; by rewrite list_lookup_insert_ne]. rewrite Hi in Hp. injection Hp as -> ->. exists i. eexists. by rewrite list_lookup_insert. }
  pose proof Hs as (_ & Hcan & _).
  split.
  - rewrite Hst. destruct t; try done; [destruct Hq as [->|[->| ->]]|destruct Hq as [->| ->]]; cbn; repeat case_match; done.
  - unfold lc_step. rewrite Hi. cbn. rewrite Hlog. destruct t; try done; [destruct Hq as [->|[->| ->]]|destruct Hq as [->| ->]]; cbn; repeat case_match; done.
  - intros j u p (p' & Hp & Hq')%step_lookup. pose proof (Hcs j u p' Hp) as Hu. destruct Hq' as [[-> ->]| ->]; [|done]. rewrite Hi in Hp. injection Hp as <- <-.
    destruct t; try done; [destruct Hu as [->|[->| ->]]|destruct Hu as [->| ->]]; cbn; rewrite ?Hcan; auto.
  - intros Hno. assert (∀ j p, lf_calls c !! j ≠ Some (LcLeave r, p)) as Hno'. { intros j p Hp. destruct (Hback (LcLeave r)) as (j' & p' & Hp'); [eauto|]. by apply (Hno j' p'). }
    specialize (Hj Hno'). rewrite Hst.
    assert (∀ c', (∃ j rs, lf_calls c' !! j = Some (LcJoin rs, QDone) ∧ r ∈ rs) ↔ ∃ rs, (∃ j, lf_calls c' !! j = Some (LcJoin rs, QDone)) ∧ r ∈ rs) as Hsw by (intros c'; split; [intros (j & rs & ? & ?)|intros (rs & (j & ?) & ?)]; eauto).
    rewrite Hsw in Hj |- *. setoid_rewrite Hother. setoid_rewrite Hsame in Hj. destruct t as [| | | | | | |rs|r']; try done.
    + destruct Hq as [->|[->| ->]]; cbn; rewrite ?Hcan; cbn; rewrite ?elem_of_union, ?Hj.
      * split; (intros [?|(rs' & [?|[? ?]] & ?)]; [by left| |]; try done; right; eauto).
      * split; [intros [Hin|[?|(rs' & [?|[? ?]] & ?)]]|intros [?|(rs' & [?|[[= <-] _]] & ?)]]; try done; try (by left); try (right; eauto; fail); eauto 6.
      * done.
    + assert (r ≠ r') as Hrr by (intros ->; by apply (Hno' i q)). assert (r ∈ ls_rooms (lc_step1 (LcLeave r') q (lf_state c)).1.2 ↔ r ∈ ls_rooms (lf_state c)) as ->.
      { destruct Hq as [->| ->]; [|done]. cbn. rewrite elem_of_difference, elem_of_singleton. tauto. }
      rewrite Hj. split; (intros [?|(rs' & [?|[? ?]] & ?)]; [by left| |]; try done; right; eauto).
  - intros Hno. assert (∀ j rs p, lf_calls c !! j = Some (LcJoin rs, p) → r ∉ rs) as Hno'. { intros j rs p Hp. destruct (Hback (LcJoin rs)) as (j' & p' & Hp'); [eauto|]. by apply (Hno j' rs p'). }
    specialize (Hl Hno'). rewrite Hst.
    assert (∀ c', (∀ j, lf_calls c' !! j ≠ Some (LcLeave r, QDone)) ↔ ¬ ∃ j, lf_calls c' !! j = Some (LcLeave r, QDone)) as Hsw by (intros c'; split; [intros H [j Hp]; by apply (H j)|intros H j Hp; apply H; eauto]).
    rewrite Hsw in Hl |- *. rewrite Hother. rewrite Hsame in Hl. destruct t as [| | | | | | |rs|r']; try done.
    + assert (r ∉ rs) as Hrs by by eapply Hno'. assert (r ∈ ls_rooms (lc_step1 (LcJoin rs) q (lf_state c)).1.2 ↔ r ∈ ls_rooms (lf_state c)) as ->.
      { destruct Hq as [->|[->| ->]]; cbn; try done. rewrite elem_of_union. tauto. }
      rewrite Hl. split; (intros [? H]; split; [done|]; intros [?|[? ?]]; [|done]; apply H; by left).
    + destruct Hq as [->| ->]; [|done]. cbn. rewrite elem_of_difference, elem_of_singleton, Hl. split.
      * intros [[H1 H2] H3]. split; [done|]. intros [?|[[= ->] _]]; [apply H2; by left|done].
      * intros [H1 H2]. split; [split; [done|]|]; [intros [?|[_ ?]]; [apply H2; by left|done]|]. intros ->. apply H2. by right.
Qed.
Lemma c51_moves_l s ts sched :
  settled s → Forall (λ t, ¬ admits t ∧ ¬ closes t) ts → returned (lc_run s ts sched) →
  settled (lf_state (lc_run s ts sched)) ∧ lf_log (lc_run s ts sched) = [] ∧
  (∀ r, LcLeave r ∉ ts → (r ∈ ls_rooms (lf_state (lc_run s ts sched)) ↔ r ∈ ls_rooms s ∨ joinable ts r)) ∧
  (∀ r, ¬ joinable ts r → (r ∈ ls_rooms (lf_state (lc_run s ts sched)) ↔ r ∈ ls_rooms s ∧ LcLeave r ∉ ts)).
Proof.
  intros Hs Hf Hr.
  assert (HA : ∀ r, moves s r (lc_run s ts sched)).
  { intros r. unfold lc_run. clear Hr. induction sched as [|i l IH] using rev_ind; [|rewrite foldl_app; by apply moves_step].
    assert (Hget : ∀ i t p, ((λ t, (t, QStart)) <$> ts) !! i = Some (t, p) → p = QStart ∧ t ∈ ts).
    { intros i t p Hi. rewrite list_lookup_fmap in Hi. destruct (ts !! i) as [x|] eqn:E; [|done]. injection Hi as <- <-. split; [done|]. by eapply elem_of_list_lookup_2. }
    split; cbn [foldl lf_calls lf_state lf_log]; [done|done| | |].
    - intros i t p Hi. destruct (Hget i t p Hi) as [-> Ht]. rewrite Forall_forall in Hf. destruct (Hf t Ht) as [Ha Hc]. destruct t; cbn in Ha, Hc; try tauto; auto.
    - intros _. split; [auto|]. intros [H|(i & rs & Hi & _)]; [done|]. by apply Hget in Hi as [? _].
    - intros _. split; [|by intros [? _]]. intros H. split; [done|]. intros i Hi. by apply Hget in Hi as [? _]. }
  pose proof (run_calls s ts sched) as Hts.
  assert (Hto : ∀ u p, (∃ i, lf_calls (lc_run s ts sched) !! i = Some (u, p)) → u ∈ ts).
  { intros u p [i Hi]. rewrite <- Hts. apply elem_of_list_fmap. exists (u, p). split; [done|]. by eapply elem_of_list_lookup_2. }
  assert (Hfrom : ∀ u, u ∈ ts → ∃ i, lf_calls (lc_run s ts sched) !! i = Some (u, QDone)).
  { intros u Hu. rewrite <- Hts in Hu. apply elem_of_list_fmap in Hu as ([t q] & Heq & Hc). cbn in Heq. subst t. apply elem_of_list_lookup in Hc as [i Hi]. exists i. by rewrite <- (Hr i _ _ Hi). }
  split; [apply (mo_state _ _ _ (HA ""))|]. split; [apply (mo_log _ _ _ (HA ""))|]. split.
  - intros r Hn. rewrite (mo_join _ _ _ (HA r)); [|intros i p Hi; apply Hn; eapply Hto; eauto]. split; (intros [?|H]; [by left|right]).
    + destruct H as (i & rs & Hi & Hin). exists rs. split; [|done]. eapply Hto. eauto.
    + destruct H as (rs & Hj & Hin). destruct (Hfrom _ Hj) as [i Hi]. eauto.
  - intros r Hn. rewrite (mo_leave _ _ _ (HA r)); [|intros i rs p Hi Hin; apply Hn; exists rs; split; [|done]; eapply Hto; eauto]. split; (intros [? H]; split; [done|]).
    + intros Hin. destruct (Hfrom _ Hin) as [i Hi]. by apply (H i).
    + intros i Hi. apply H. eapply Hto. eauto.
Qed.
