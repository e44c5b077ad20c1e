(** More about admissions (C51): the rooms of an admitted socket; a refused client is told. *)
From Verif Require Import Base LifeConc LifeConcSpec LifeConcProofs.

Definition owned (p : lpc) : bool := match p with QPacket | QTable | QNsps | QConnect | QConnection | QDone => true | _ => false end.
Record rooms_ok (s0 : lstate) (own r : room) (c : lconf) : Prop := {
  ro_adm : admission own c;
  ro_leave : ∀ i p, lf_calls c !! i ≠ Some (LcLeave r, p);
  ro_rooms : r ∈ ls_rooms (lf_state c) ↔ r ∈ ls_rooms s0 ∨ (r = own ∧ ∃ p, lf_calls c !! 0 = Some (LcConnect own false, p) ∧ owned p = true) ∨
             ∃ i rs, lf_calls c !! i = Some (LcJoin rs, QDone) ∧ r ∈ rs }.
Lemma calls_step c i t p : lf_calls c !! i = Some (t, p) → lf_calls (lc_step c i) = <[i := (t, (lc_step1 t p (lf_state c)).1.1)]> (lf_calls c).
Proof. intros Hi. unfold lc_step. by rewrite Hi. Qed.
Lemma rooms_step s0 own r c i : rooms_ok s0 own r c → rooms_ok s0 own r (lc_step c i).
Proof.
  intros [Ha Hl Hr]. destruct (lf_calls c !! i) as [[t q]|] eqn:Hi; [|unfold lc_step; by rewrite Hi].
  split.
  - by apply admission_step.
  - intros j p Hj. apply step_lookup in Hj as (q' & Hj & _). by apply (Hl j q').
  - destruct Ha as [(p & H0 & Hs & _) Hrest]. rewrite (step_state c i t q Hi), (calls_step c i t q Hi). pose proof (lookup_lt_Some _ _ _ Hi) as Hlt.
    assert (Hj : (∃ j rs, <[i := (t, (lc_step1 t q (lf_state c)).1.1)]> (lf_calls c) !! j = Some (LcJoin rs, QDone) ∧ r ∈ rs) ↔
      (∃ j rs, j ≠ i ∧ lf_calls c !! j = Some (LcJoin rs, QDone) ∧ r ∈ rs) ∨ ∃ rs, t = LcJoin rs ∧ (lc_step1 t q (lf_state c)).1.1 = QDone ∧ r ∈ rs).
    { split.
      - intros (j & rs & Hj & Hin). destruct (decide (j = i)) as [->|Hn]; [rewrite list_lookup_insert in Hj by done; right; exists rs; by injection Hj|].
        rewrite list_lookup_insert_ne in Hj by done. left. eauto.
      - intros [(j & rs & Hn & Hj & Hin)|(rs & -> & Hd & Hin)]; [exists j, rs; by rewrite list_lookup_insert_ne|]. exists i, rs. by rewrite list_lookup_insert, Hd. }
    rewrite Hj. clear Hj. destruct i as [|i].
    + rewrite H0 in Hi. injection Hi as <- <-. rewrite list_lookup_insert by done.
      assert (Hjs : (∃ j rs, lf_calls c !! j = Some (LcJoin rs, QDone) ∧ r ∈ rs) ↔ (∃ j rs, j ≠ 0 ∧ lf_calls c !! j = Some (LcJoin rs, QDone) ∧ r ∈ rs)).
      { split; [|naive_solver]. intros (j & rs & Hj & Hin). exists j, rs. split; [|done]. intros ->. by rewrite H0 in Hj. }
      rewrite <- Hjs. assert (∀ A B, (A ↔ B) → A ∨ (∃ rs, LcConnect own false = LcJoin rs ∧ (lc_step1 (LcConnect own false) p (lf_state c)).1.1 = QDone ∧ r ∈ rs) ↔ B) as Hx by naive_solver.
      rewrite (Hx _ _ (reflexivity _)). set (J := ∃ j rs, _) in *. clearbody J.
      assert (Hr' : r ∈ ls_rooms (lf_state c) ↔ r ∈ ls_rooms s0 ∨ r = own ∧ owned p = true ∨ J).
      { rewrite Hr. split; intros [H|[[-> H]|H]]; auto; [destruct H as (p' & Hp' & H); rewrite H0 in Hp'; injection Hp' as <-; auto|right; left; eauto]. }
      assert (Hg : ∀ q X, (X ↔ r ∈ ls_rooms s0 ∨ r = own ∧ owned q = true ∨ J) →
        (X ↔ r ∈ ls_rooms s0 ∨ r = own ∧ (∃ p, Some (LcConnect own false, q) = Some (LcConnect own false, p) ∧ owned p = true) ∨ J)).
      { intros q' X ->. split; intros [H|[[-> H]|H]]; auto; [right; left; eauto|destruct H as (? & [= <-] & ?); auto]. }
      apply Hg. clear Hg Hr Hx. destruct Hs as (Ho & Hc & Hs). destruct p; try done; cbn; rewrite ?Ho, ?Hc; cbn; try done.
      rewrite elem_of_union, elem_of_singleton, Hr'. cbn. intuition congruence.
    + destruct (Hrest i t q Hi) as (Hna & Hnc & Hq). rewrite list_lookup_insert_ne by done.
      destruct t as [| | | | | | |rs|r']; cbn in Hna, Hnc; try tauto.
      * assert (Hjs : (∃ j rs', lf_calls c !! j = Some (LcJoin rs', QDone) ∧ r ∈ rs') ↔
          (∃ j rs', j ≠ S i ∧ lf_calls c !! j = Some (LcJoin rs', QDone) ∧ r ∈ rs') ∨ q = QDone ∧ r ∈ rs).
        { split.
          - intros (j & rs' & Hj & Hin). destruct (decide (j = S i)) as [->|Hn]; [rewrite Hi in Hj; injection Hj as -> ->; auto|left; eauto].
          - intros [(j & rs' & _ & ?)|[-> ?]]; eauto. }
        rewrite Hjs in Hr. set (J := ∃ j rs', j ≠ _ ∧ _) in *. set (O := r = own ∧ _) in *. clearbody J O.
        assert (∀ P : lpc → Prop, (∃ rs0, LcJoin rs = LcJoin rs0 ∧ P QDone ∧ r ∈ rs0) ↔ P QDone ∧ r ∈ rs) as HP by naive_solver.
        rewrite (HP (λ x, (lc_step1 (LcJoin rs) q (lf_state c)).1.1 = x)). destruct Hs as (_ & Hc & _). destruct q; try done; cbn; rewrite ?Hc; cbn.
        all: rewrite ?elem_of_union, Hr; clear; intuition congruence.
      * assert (r ≠ r') as Hrr by (intros ->; by apply (Hl (S i) q)).
        assert (Hjs : (∃ j rs', lf_calls c !! j = Some (LcJoin rs', QDone) ∧ r ∈ rs') ↔ (∃ j rs', j ≠ S i ∧ lf_calls c !! j = Some (LcJoin rs', QDone) ∧ r ∈ rs')).
        { split; [|naive_solver]. intros (j & rs' & Hj & Hin). exists j, rs'. split; [|done]. intros ->. by rewrite Hi in Hj. }
        rewrite Hjs in Hr. assert (r ∈ ls_rooms (lc_step1 (LcLeave r') q (lf_state c)).1.2 ↔ r ∈ ls_rooms (lf_state c)) as ->.
        { destruct q; try done; cbn. rewrite elem_of_difference, elem_of_singleton. naive_solver. }
        rewrite Hr. naive_solver.
Qed.
Lemma run_calls s ts sched : (lf_calls (lc_run s ts sched)).*1 = ts.
Proof.
  unfold lc_run. induction sched as [|i l IH] using rev_ind.
  - cbn. rewrite <- list_fmap_compose. clear. by induction ts as [|x xs IH]; cbn; [|f_equal].
  - rewrite foldl_app. cbn [foldl]. unfold lc_step at 1. destruct (_ !! i) as [[t p]|] eqn:E; [|done]. cbn [lf_calls].
    rewrite list_fmap_insert. cbn [fst]. rewrite list_insert_id; [done|]. by rewrite list_lookup_fmap, E.
Qed.
Lemma c51_rooms_l s ts sched own r :
  fresh s → ls_open s = true → Forall (λ t, ¬ admits t ∧ ¬ closes t) ts → LcLeave r ∉ ts → returned (lc_run s (LcConnect own false :: ts) sched) →
  (r ∈ ls_rooms (lf_state (lc_run s (LcConnect own false :: ts) sched)) ↔ r = own ∨ r ∈ ls_rooms s ∨ joinable ts r).
Proof.
  intros (F1 & F2 & F3 & F4 & F5) Ho Hf Hl Hr.
  assert (HA : rooms_ok s own r (lc_run s (LcConnect own false :: ts) sched)).
  { unfold lc_run. clear Hr. induction sched as [|i l IH] using rev_ind; [|rewrite foldl_app; by apply rooms_step].
    assert (Hget : ∀ i t p, ((λ t, (t, QStart)) <$> (LcConnect own false :: ts)) !! i = Some (t, p) → p = QStart ∧ t ∈ LcConnect own false :: ts).
    { intros i t p Hi. rewrite list_lookup_fmap in Hi. destruct ((LcConnect own false :: ts) !! i) as [x|] eqn:E; [|done]. injection Hi as <- <-. split; [done|]. by eapply elem_of_list_lookup_2. }
    split; cbn [foldl lf_calls lf_state].
    - split; [by exists QStart|]. intros i t p. change (((λ t, (t, QStart)) <$> ts) !! i = Some (t, p) → ¬ admits t ∧ ¬ closes t ∧ match p with QStart | QAdd | QDone => True | _ => False end). rewrite list_lookup_fmap. destruct (ts !! i) as [x|] eqn:E; [|done]. intros [= <- <-].
      rewrite Forall_forall in Hf. apply elem_of_list_lookup_2 in E. destruct (Hf x E). done.
    - intros i p Hi. apply Hget in Hi as [_ [?|?]%elem_of_cons]; done.
    - split; [auto|]. intros [H|[[_ (p & Hp & H)]|(i & rs & Hi & _)]]; [done| |]; [by injection Hp as <-|by apply Hget in Hi as [? _]]. }
  destruct HA as [[(p & H0 & _) _] _ Hrooms]. rewrite Hrooms. pose proof (run_calls s (LcConnect own false :: ts) sched) as Hts.
  split.
  - intros [H|[[-> _]|(i & rs & Hi & Hin)]]; [auto|auto|]. right. right. exists rs. split; [|done].
    assert (LcJoin rs ∈ LcConnect own false :: ts) as Hj. { rewrite <- Hts. apply elem_of_list_fmap. exists (LcJoin rs, QDone). split; [done|]. by eapply elem_of_list_lookup_2. }
    apply elem_of_cons in Hj as [?|?]; done.
  - intros [->|[H|(rs & Hj & Hin)]]; [|auto|].
    + right. left. split; [done|]. exists p. split; [done|]. by rewrite (Hr 0 _ _ H0).
    + right. right. assert (LcJoin rs ∈ (lf_calls (lc_run s (LcConnect own false :: ts) sched)).*1) as Hc by (rewrite Hts; by apply elem_of_cons; right).
      apply elem_of_list_fmap in Hc as ([t q] & Heq & Hc). cbn in Heq. subst t. apply elem_of_list_lookup in Hc as [i Hi]. exists i, rs. by rewrite <- (Hr i _ _ Hi).
Qed.

(** The refusal. *)
Record told (own : room) (c : lconf) : Prop := {
  tl_ref : refusal c;
  tl_open : ls_open (lf_state c) = true;
  tl_calls : ∀ i t p, lf_calls c !! S i = Some (t, p) → ¬ admits t ∧ t ≠ LcClient ∧ ∀ r, t ≠ LcTransport r;
  tl_log : ∃ p, lf_calls c !! 0 = Some (LcConnect own true, p) ∧ (lf_log c).*2 = match p with QDone => [VDenied] | _ => [] end }.
Lemma told_step own c i : told own c → told own (lc_step c i).
Proof.
  intros [HR Ho Hcs (p & H0 & Hl)]. destruct (lf_calls c !! i) as [[t q]|] eqn:Hi; [|unfold lc_step; rewrite Hi; split; eauto].
  pose proof (rf_calls _ HR i t q Hi) as Hq. pose proof (rf_off _ HR) as (R1 & R2 & R3 & R4).
  split.
  - by apply refusal_step.
  - rewrite (step_state c i t q Hi). destruct i as [|i].
    + rewrite H0 in Hi. injection Hi as <- <-. destruct Hq as [_ Hq]. destruct p; try done.
    + destruct (Hcs i t q Hi) as (Ha & Hc & Ht). destruct t as [| r| | | | | | | ]; try (by cbn in Ha; tauto); try (by destruct (Ht r)); destruct q; done.
  - intros j u q' (q'' & Hj & _)%step_lookup. by apply (Hcs j u q'').
  - destruct i as [|i].
    + rewrite H0 in Hi. injection Hi as <- <-. exists (lc_step1 (LcConnect own true) p (lf_state c)).1.1. unfold lc_step. rewrite H0. cbn [lf_calls lf_log].
      rewrite list_lookup_insert by (by eapply lookup_lt_Some). split; [done|]. rewrite fmap_app, Hl. destruct Hq as [_ Hq]. destruct p; try done; cbn; rewrite ?Ho; done.
    + exists p. unfold lc_step. rewrite Hi. cbn [lf_calls lf_log]. rewrite list_lookup_insert_ne by lia. split; [done|]. rewrite fmap_app, Hl.
      destruct (Hcs i t q Hi) as (Ha & Hc & Ht). assert ((lc_step1 t q (lf_state c)).2 = None) as ->; [|by rewrite app_nil_r].
      destruct t as [| r| | | | | | | ]; try (by cbn in Ha; tauto); try (by destruct (Ht r)); destruct q; try done.
Qed.
Lemma c51_told_l s ts sched own :
  fresh s → ls_open s = true → (∀ t, t ∈ ts → ¬ admits t ∧ t ≠ LcClient ∧ ∀ r, t ≠ LcTransport r) → returned (lc_run s (LcConnect own true :: ts) sched) →
  (lf_log (lc_run s (LcConnect own true :: ts) sched)).*2 = [VDenied].
Proof.
  intros (F1 & F2 & F3 & F4 & F5) Ho Hf Hr.
  assert (HA : told own (lc_run s (LcConnect own true :: ts) sched)).
  { unfold lc_run. clear Hr. induction sched as [|i l IH] using rev_ind; [|rewrite foldl_app; by apply told_step].
    assert (Hget : ∀ i t p, ((λ t, (t, QStart)) <$> ts) !! i = Some (t, p) → p = QStart ∧ t ∈ ts).
    { intros i t p Hi. rewrite list_lookup_fmap in Hi. destruct (ts !! i) as [x|] eqn:E; [|done]. injection Hi as <- <-. split; [done|]. by eapply elem_of_list_lookup_2. }
    split; [|done| |by exists QStart].
    - split; [done| |by intros e He; apply elem_of_nil in He]. intros [|i] t p Hi.
      + injection Hi as <- <-. split; [by right|done].
      + destruct (Hget i t p Hi) as [-> Ht]. destruct (Hf t Ht) as (Ha & _). destruct t; try done; by destruct Ha.
    - intros i t p Hi. destruct (Hget i t p Hi) as [_ Ht]. by apply Hf. }
  destruct HA as [_ _ _ (p & H0 & Hl)]. rewrite Hl. by rewrite (Hr 0 _ _ H0).
Qed.

(** Rooms that are left. *)
Record left_ok (s0 : lstate) (own r : room) (c : lconf) : Prop := {
  le_adm : admission own c;
  le_own : r ≠ own;
  le_join : ∀ i rs p, lf_calls c !! i = Some (LcJoin rs, p) → r ∉ rs;
  le_pc : ∀ i r' p, lf_calls c !! i = Some (LcLeave r', p) → p ≠ QAdd;
  le_rooms : r ∈ ls_rooms (lf_state c) ↔ r ∈ ls_rooms s0 ∧ ∀ i, lf_calls c !! i ≠ Some (LcLeave r, QDone) }.
Lemma left_step s0 own r c i : left_ok s0 own r c → left_ok s0 own r (lc_step c i).
Proof.
  intros [Ha Ho Hj Hpc Hr]. destruct (lf_calls c !! i) as [[t q]|] eqn:Hi; [|unfold lc_step; by rewrite Hi].
  split; [by apply admission_step|done| | |].
  - intros j rs p Hp. apply step_lookup in Hp as (q' & Hp & _). by eapply Hj.
  - intros j r' p Hp. apply step_lookup in Hp as (q' & Hp & Hq). pose proof (Hpc j r' q' Hp) as Hne. destruct Hq as [[-> ->]| ->]; [|done]. rewrite Hi in Hp. injection Hp as -> ->.
    destruct j as [|j]; [destruct Ha as [(p & H0 & _) _]; by rewrite H0 in Hi|]. destruct (ad_rest _ _ Ha j _ _ Hi) as (_ & _ & Hq). by destruct q'.
  - destruct Ha as [(p & H0 & Hs & _) Hrest]. rewrite (step_state c i t q Hi), (calls_step c i t q Hi). pose proof (lookup_lt_Some _ _ _ Hi) as Hlt.
    assert (Hl : (∀ j, <[i := (t, (lc_step1 t q (lf_state c)).1.1)]> (lf_calls c) !! j ≠ Some (LcLeave r, QDone)) ↔
      (∀ j, j ≠ i → lf_calls c !! j ≠ Some (LcLeave r, QDone)) ∧ (t, (lc_step1 t q (lf_state c)).1.1) ≠ (LcLeave r, QDone)).
    { split.
      - intros H. split; [intros j Hn; specialize (H j); by rewrite list_lookup_insert_ne in H|]. specialize (H i). rewrite list_lookup_insert in H by done. congruence.
      - intros [H1 H2] j. destruct (decide (j = i)) as [->|Hn]; [rewrite list_lookup_insert by done; congruence|]. rewrite list_lookup_insert_ne by done. by apply H1. }
    assert (Hl' : (∀ j, lf_calls c !! j ≠ Some (LcLeave r, QDone)) ↔ (∀ j, j ≠ i → lf_calls c !! j ≠ Some (LcLeave r, QDone)) ∧ (t, q) ≠ (LcLeave r, QDone)).
    { split; [intros H; split; [by auto|]; specialize (H i); rewrite Hi in H; congruence|]. intros [H1 H2] j. destruct (decide (j = i)) as [->|Hn]; [rewrite Hi; congruence|by apply H1]. }
    rewrite Hl. rewrite Hl' in Hr. clear Hl Hl'. set (J := ∀ j, j ≠ i → _) in *. clearbody J. destruct i as [|i].
    + rewrite H0 in Hi. injection Hi as <- <-. assert (r ∈ ls_rooms (lc_step1 (LcConnect own false) p (lf_state c)).1.2 ↔ r ∈ ls_rooms (lf_state c)) as ->.
      { destruct Hs as (_ & _ & Hs). destruct p; try done. cbn. rewrite elem_of_union, elem_of_singleton. tauto. }
      rewrite Hr. clear. intuition congruence.
    + destruct (Hrest i t q Hi) as (Hna & Hnc & Hq). destruct t as [| | | | | | |rs|r']; cbn in Hna, Hnc; try tauto.
      * assert (r ∉ rs) as Hrs by by eapply Hj. assert (r ∈ ls_rooms (lc_step1 (LcJoin rs) q (lf_state c)).1.2 ↔ r ∈ ls_rooms (lf_state c)) as ->.
        { destruct q; try done. cbn. rewrite elem_of_union. tauto. }
        rewrite Hr. clear. intuition congruence.
      * pose proof (Hpc _ _ _ Hi) as Hne. destruct q; try done; cbn; try (rewrite Hr; clear; intuition congruence). rewrite elem_of_difference, elem_of_singleton, Hr. clear. intuition congruence.
Qed.
Lemma c51_left_l s ts sched own r :
  fresh s → ls_open s = true → Forall (λ t, ¬ admits t ∧ ¬ closes t) ts → r ≠ own → ¬ joinable ts r → returned (lc_run s (LcConnect own false :: ts) sched) →
  (r ∈ ls_rooms (lf_state (lc_run s (LcConnect own false :: ts) sched)) ↔ r ∈ ls_rooms s ∧ LcLeave r ∉ ts).
Proof.
  intros (F1 & F2 & F3 & F4 & F5) Ho Hf Hn Hj Hr.
  assert (HA : left_ok s own r (lc_run s (LcConnect own false :: ts) sched)).
  { unfold lc_run. clear Hr. induction sched as [|i l IH] using rev_ind; [|rewrite foldl_app; by apply left_step].
    assert (Hget : ∀ i t p, ((λ t, (t, QStart)) <$> (LcConnect own false :: ts)) !! i = Some (t, p) → p = QStart ∧ t ∈ LcConnect own false :: ts).
    { intros i t p Hi. rewrite list_lookup_fmap in Hi. destruct ((LcConnect own false :: ts) !! i) as [x|] eqn:E; [|done]. injection Hi as <- <-. split; [done|]. by eapply elem_of_list_lookup_2. }
    split; cbn [foldl lf_calls lf_state].
    - split; [by exists QStart|]. intros i t p. change (((λ t, (t, QStart)) <$> ts) !! i = Some (t, p) → ¬ admits t ∧ ¬ closes t ∧ match p with QStart | QAdd | QDone => True | _ => False end). rewrite list_lookup_fmap. destruct (ts !! i) as [x|] eqn:E; [|done]. intros [= <- <-].
      rewrite Forall_forall in Hf. apply elem_of_list_lookup_2 in E. destruct (Hf x E). done.
    - done.
    - intros i rs p Hi Hin. apply Hget in Hi as [_ [?|?]%elem_of_cons]; [done|]. apply Hj. by exists rs.
    - intros i r' p Hi. by apply Hget in Hi as [-> _].
    - split; [|by intros [? _]]. intros H. split; [done|]. intros i Hi. by apply Hget in Hi as [? _]. }
  destruct HA as [_ _ _ _ Hrooms]. rewrite Hrooms. pose proof (run_calls s (LcConnect own false :: ts) sched) as Hts.
  assert ((∀ i, lf_calls (lc_run s (LcConnect own false :: ts) sched) !! i ≠ Some (LcLeave r, QDone)) ↔ LcLeave r ∉ ts) as ->; [|done]. split.
  - intros H Hin. assert (LcLeave r ∈ (lf_calls (lc_run s (LcConnect own false :: ts) sched)).*1) as Hc by (rewrite Hts; by apply elem_of_cons; right).
    apply elem_of_list_fmap in Hc as ([t q] & Heq & Hc). cbn in Heq. subst t. apply elem_of_list_lookup in Hc as [i Hi]. apply (H i). by rewrite <- (Hr i _ _ Hi).
  - intros H i Hi. apply H. assert (LcLeave r ∈ LcConnect own false :: ts) as Hc. { rewrite <- Hts. apply elem_of_list_fmap. exists (LcLeave r, QDone). split; [done|]. by eapply elem_of_list_lookup_2. }
    apply elem_of_cons in Hc as [?|?]; done.
Qed.
