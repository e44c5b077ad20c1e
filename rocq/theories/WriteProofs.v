(** Proofs about [Write.v]. *)
From Verif Require Import Base Write WriteSpec.

Lemma wexec_app ls1 ls2 s : wexec (ls1 ++ ls2) s = wexec ls1 s ≫= wexec ls2.
Proof. revert s. induction ls1 as [|l ls1 IH]; intros s; simpl; [done|]. destruct (wstep l s); simpl; [apply IH|done]. Qed.
Lemma wexec_snoc ls l s : wexec ls wst0 = Some s → wexec (ls ++ [l]) wst0 = wstep l s.
Proof. intros H. rewrite wexec_app, H. simpl. by destruct (wstep l s). Qed.
Lemma wexec_ind (I : list wlabel → wst → Prop) : I [] wst0 →
  (∀ ls l s s', wexec ls wst0 = Some s → I ls s → wstep l s = Some s' → I (ls ++ [l]) s') →
  ∀ ls s, wexec ls wst0 = Some s → I ls s.
Proof.
  intros H0 Hstep ls. induction ls as [|l ls IH] using rev_ind; intros s; [by intros [= <-]|].
  rewrite wexec_app. destruct (wexec ls wst0) as [s1|] eqn:E; [|done]. simpl.
  destruct (wstep l s1) as [s2|] eqn:E2; [|done]. intros [= <-]. eapply Hstep; eauto.
Qed.
Lemma at_moment_mono ls l t pc P : at_moment ls t pc P → at_moment (ls ++ [l]) t pc P.
Proof. intros (l1&l2&s&x&->&H1&H2). exists l1, (l2 ++ [l]), s, x. by rewrite <- app_assoc. Qed.
Lemma at_moment_now ls t s x pc (P : wst → Prop) : wexec ls wst0 = Some s → w_thr s !! t = Some x → wt_pc x = pc → P s → at_moment (ls ++ [WRun t]) t pc P.
Proof. intros H1 H2 H3 H4. by exists ls, [], s, x. Qed.
Lemma wcalls_snoc ls l : wcalls (ls ++ [l]) = wcalls ls ++ wcalls [l].
Proof. apply omap_app. Qed.

(** What is known about a goroutine, given the blocks [ts] written so far. *)
Definition in_cs (pc : wpc) : bool := match pc with WCheck | WWrite _ | WUnlock _ => true | _ => false end.
Definition wknow (ls : list wlabel) (t : nat) (x : wthread) : Prop :=
  match wt_pc x with
  | WWrite _ | WUnlock WWritten | WDone WWritten => wt_vol x = true → at_moment ls t WCheck (λ s, w_writable s = true)
  | WUnlock WDiscarded | WDone WDiscarded => wt_vol x = true ∧ at_moment ls t WCheck (λ s, w_writable s = false)
  | WUnlock WIgnored => False
  | WDone WIgnored => (∃ v fs, wcalls ls !! t = Some (true, v, fs)) ∧ at_moment ls t WReady (λ s, w_open s = false)
  | WReady => ∃ v fs, wcalls ls !! t = Some (true, v, fs)
  | _ => True
  end.
Definition cur (s : wst) : list (nat * string) :=
  match w_lock s with
  | Some t => match w_thr s !! t with
     | Some x => match wt_pc x with WWrite fs => pair t <$> take (length (wt_frames x) - length fs) (wt_frames x) | _ => [] end
     | None => [] end
  | None => [] end.
Definition has_written (x : wthread) : bool := match wt_pc x with WUnlock WWritten | WDone WWritten => true | _ => false end.
Record winv (ls : list wlabel) (s : wst) : Prop := {
  wi_thr : (λ x, (wt_vol x, wt_frames x)) <$> w_thr s = (λ c, (c.1.2, c.2)) <$> wcalls ls;
  wi_know : ∀ t x, w_thr s !! t = Some x → wknow ls t x;
  wi_lock : ∀ t x, w_thr s !! t = Some x → in_cs (wt_pc x) = true → w_lock s = Some t;
  wi_own : ∀ t, w_lock s = Some t → ∃ x, w_thr s !! t = Some x ∧ in_cs (wt_pc x) = true;
  wi_suf : ∀ t x fs, w_thr s !! t = Some x → wt_pc x = WWrite fs → ∃ pre, wt_frames x = pre ++ fs;
  wi_log : ∃ ts, NoDup ts ∧ w_log s = concat (block ls <$> ts) ++ cur s ∧
     ∀ t, t ∈ ts ↔ ∃ x, w_thr s !! t = Some x ∧ has_written x = true }.

Lemma frames_thr ls s t x : winv ls s → w_thr s !! t = Some x → frames_of ls t = wt_frames x.
Proof.
  intros Hi Hx. pose proof (wi_thr _ _ Hi) as H. apply (f_equal (.!! t)) in H. rewrite !list_lookup_fmap, Hx in H. simpl in H.
  unfold frames_of. destruct (wcalls ls !! t) as [c|]; [|done]. simpl in *. congruence.
Qed.
Lemma wcalls_len ls s : winv ls s → length (wcalls ls) = length (w_thr s).
Proof. intros Hi. pose proof (wi_thr _ _ Hi) as H. apply (f_equal length) in H. by rewrite !fmap_length in H. Qed.
Lemma wknow_mono ls l t x : wknow ls t x → wknow (ls ++ [l]) t x.
Proof.
  unfold wknow. destruct (wt_pc x) as [| | |fs|[]|[]]; try done; rewrite ?wcalls_snoc.
  all: repeat match goal with |- context [at_moment (_ ++ _)] => idtac end.
  all: try (intros H Hv; by apply at_moment_mono, H).
  all: try (intros [H1 H2]; split; [done|by apply at_moment_mono]).
  - intros (v&fs&H1). exists v, fs. by apply lookup_app_l_Some.
  - intros [(v&fs&H1) H2]. split; [|by apply at_moment_mono]. exists v, fs. by apply lookup_app_l_Some.
Qed.
Lemma cur_eq s s' : w_lock s' = w_lock s → (∀ t, w_lock s = Some t → w_thr s' !! t = w_thr s !! t) → cur s' = cur s.
Proof. intros H1 H2. unfold cur. rewrite H1. destruct (w_lock s) as [t|]; [|done]. by rewrite H2. Qed.
Lemma winv_call ls s l (v : bool) (fs : list string) pc (b : bool) : winv ls s → wcalls [l] = [(b, v, fs)] → (pc = WReady ∧ b = true) ∨ pc = WLock →
  winv (ls ++ [l]) (WSt (w_open s) (w_writable s) (w_lock s) (w_thr s ++ [WThread v fs pc]) (w_log s)).
Proof.
  intros Hi Hl Hpc. pose proof Hi as [I1 I2 I3 I4 I5 (ts&Hnd&Hlog&Hts)].
  assert (∀ t x, (w_thr s ++ [WThread v fs pc]) !! t = Some x → w_thr s !! t = Some x ∨ x = WThread v fs pc) as Hlk.
  { intros t x Hx. apply lookup_app_Some in Hx as [Hx|[_ Hx]]; [by left|]. apply list_lookup_singleton_Some in Hx as [_ <-]. by right. }
  split; cbn [w_open w_writable w_lock w_thr w_log].
  - rewrite wcalls_snoc, Hl, !fmap_app, I1. done.
  - intros t x Hx. destruct (Hlk t x Hx) as [Hx'| ->]; [by apply wknow_mono, I2|]. apply lookup_app_Some in Hx as [Hx|[Hge Hx]]; [by apply wknow_mono, I2|].
    apply list_lookup_singleton_Some in Hx as [Hq _]. unfold wknow; simpl. destruct Hpc as [[-> ->] | ->]; [|done].
    exists v, fs. rewrite wcalls_snoc, Hl. rewrite lookup_app_r by (rewrite (wcalls_len _ _ Hi); lia).
    by rewrite (wcalls_len _ _ Hi), Hq.
  - intros t x Hx Hc. destruct (Hlk t x Hx) as [Hx'| ->]; [by eapply I3|]. simpl in Hc. by destruct Hpc as [[-> ->] | ->].
  - intros t Ht. destruct (I4 t Ht) as (x&Hx&?). exists x. split; [by apply lookup_app_l_Some|done].
  - intros t x fs' Hx Hp. destruct (Hlk t x Hx) as [Hx'| ->]; [by eapply I5|]. simpl in Hp. by destruct Hpc as [[-> ->] | ->].
  - exists ts. split; [done|]. split.
    + rewrite Hlog. f_equal.
      * f_equal. apply list_fmap_ext. intros i t Hi'. apply elem_of_list_lookup_2, Hts in Hi' as (x&Hx&_). unfold block, frames_of.
        rewrite wcalls_snoc, lookup_app_l; [done|]. rewrite (wcalls_len _ _ Hi). by eapply lookup_lt_Some.
      * symmetry. apply cur_eq; [done|]. intros t Ht. destruct (I4 t Ht) as (x&Hx&_). simpl. rewrite Hx. by apply lookup_app_l_Some.
    + intros t. rewrite Hts. split.
      * intros (x&Hx&?). exists x. split; [by apply lookup_app_l_Some|done].
      * intros (x&Hx&Hw). destruct (Hlk t x Hx) as [Hx'| ->]; [by exists x|]. unfold has_written in Hw. simpl in Hw. by destruct Hpc as [[-> ->] | ->].
Qed.
Lemma winv_run ls s t x lk pc' log' : wexec ls wst0 = Some s → winv ls s → w_thr s !! t = Some x →
  let s' := WSt (w_open s) (w_writable s) lk (<[t := WThread (wt_vol x) (wt_frames x) pc']> (w_thr s)) log' in
  wknow (ls ++ [WRun t]) t (WThread (wt_vol x) (wt_frames x) pc') →
  (in_cs pc' = true → lk = Some t) →
  (lk = w_lock s ∨ w_lock s = None ∨ w_lock s = Some t) →
  (∀ u, lk = Some u → w_lock s = Some u ∨ u = t) → (lk = Some t → in_cs pc' = true) →
  (∀ fs, pc' = WWrite fs → ∃ pre, wt_frames x = pre ++ fs) →
  (∀ ts, NoDup ts → w_log s = concat (block ls <$> ts) ++ cur s → (t ∈ ts ↔ has_written x = true) →
     (log' = concat (block ls <$> ts) ++ cur s' ∧ (has_written (WThread (wt_vol x) (wt_frames x) pc') = has_written x)) ∨
     (log' = concat (block ls <$> ts) ++ block ls t ++ cur s' ∧ has_written x = false ∧ has_written (WThread (wt_vol x) (wt_frames x) pc') = true)) →
  winv (ls ++ [WRun t]) s'.
Proof.
  intros He Hi Ht s' Hk L1 L2 L3 L4 Hsuf Hlog'. pose proof Hi as [I1 I2 I3 I4 I5 (ts&Hnd&Hlog&Hts)].
  assert (wcalls (ls ++ [WRun t]) = wcalls ls) as Hwc by (rewrite wcalls_snoc; simpl; by rewrite app_nil_r).
  pose proof (lookup_lt_Some _ _ _ Ht) as Hlt.
  assert (∀ u y, w_thr s' !! u = Some y → (u = t ∧ y = WThread (wt_vol x) (wt_frames x) pc') ∨ (u ≠ t ∧ w_thr s !! u = Some y)) as Hlk.
  { intros u y. simpl. rewrite list_lookup_insert_Some. naive_solver. }
  split.
  - rewrite Hwc, <- I1. simpl. rewrite list_fmap_insert. apply list_insert_id. by rewrite list_lookup_fmap, Ht.
  - intros u y Hy. destruct (Hlk _ _ Hy) as [[-> ->]|[_ Hy']]; [done|]. by apply wknow_mono, I2.
  - intros u y Hy Hc. destruct (Hlk _ _ Hy) as [[-> ->]|[Hne Hy']]; [by apply L1|]. specialize (I3 _ _ Hy' Hc). simpl.
    destruct L2 as [->|[?|?]]; congruence.
  - simpl. intros u Hu. destruct (decide (u = t)) as [->|Hne].
    + eexists. rewrite list_lookup_insert by done. split; [done|]. simpl. auto.
    + destruct (L3 u Hu) as [Hu'|]; [|done]. destruct (I4 _ Hu') as (y&Hy&?). exists y. by rewrite list_lookup_insert_ne.
  - intros u y fs Hy Hp. destruct (Hlk _ _ Hy) as [[-> ->]|[Hne Hy']]; [by apply Hsuf|]. by eapply I5.
  - assert (block (ls ++ [WRun t]) = block ls) as Hb. { unfold block, frames_of. by rewrite Hwc. }
    rewrite Hb. assert (t ∈ ts ↔ has_written x = true) as Htx. { rewrite Hts. split; [intros (y&Hy&?); congruence|eauto]. }
    destruct (Hlog' ts Hnd Hlog Htx) as [[Hlg Hw]|(Hlg&Hw1&Hw2)].
    + exists ts. split; [done|]. split; [exact Hlg|]. intros u. rewrite Hts. split.
      * intros (y&Hy&Hyw). destruct (decide (u = t)) as [->|Hne].
        -- eexists. simpl. rewrite list_lookup_insert by done. split; [done|]. congruence.
        -- exists y. simpl. by rewrite list_lookup_insert_ne.
      * intros (y&Hy&Hyw). destruct (Hlk _ _ Hy) as [[-> ->]|[Hne Hy']]; [|by exists y]. exists x. split; [done|]. congruence.
    + exists (ts ++ [t]). split; [|split].
      * apply NoDup_app. split; [done|]. split; [|apply NoDup_singleton]. intros u Hu ->%elem_of_list_singleton. apply Htx in Hu. congruence.
      * change (w_log s') with log'. rewrite Hlg, fmap_app, concat_app. simpl. rewrite app_nil_r, <- app_assoc. done.
      * intros u. rewrite elem_of_app, elem_of_list_singleton, Hts. split.
        -- intros [(y&Hy&Hyw)| ->].
           ++ destruct (decide (u = t)) as [->|Hne]; [congruence|]. exists y. simpl. by rewrite list_lookup_insert_ne.
           ++ eexists. simpl. rewrite list_lookup_insert by done. done.
        -- intros (y&Hy&Hyw). destruct (Hlk _ _ Hy) as [[-> ->]|[Hne Hy']]; [by right|]. left. by exists y.
Qed.
Lemma winv_step ls l s s' : wexec ls wst0 = Some s → winv ls s → wstep l s = Some s' → winv (ls ++ [l]) s'.
Proof.
  intros He Hi. destruct l as [v fs|v fs|o w|t]; cbn [wstep].
  - intros [= <-]. eapply winv_call; eauto.
  - intros [= <-]. eapply winv_call; eauto.
  - intros [= <-]. destruct Hi as [I1 I2 I3 I4 I5 I6].
    assert (wcalls (ls ++ [WEnv o w]) = wcalls ls) as Hwc by (rewrite wcalls_snoc; simpl; by rewrite app_nil_r).
    split; simpl; try done.
    + by rewrite Hwc.
    + intros t x Hx. by apply wknow_mono, I2.
    + assert (block (ls ++ [WEnv o w]) = block ls) as ->. { unfold block, frames_of. by rewrite Hwc. } done.
  - destruct (w_thr s !! t) as [x|] eqn:Ht; [|done]. unfold wstep_thr.
    pose proof (frames_thr _ _ _ _ Hi Ht) as Hfr.
    pose proof (wi_lock _ _ Hi _ _ Ht) as Hlk. pose proof (wi_know _ _ Hi _ _ Ht) as Hkn.
    assert (w_lock s = Some t → in_cs (wt_pc x) = true) as Hown. { intros H. destruct (wi_own _ _ Hi _ H) as (y&Hy&?). congruence. }
    assert (∀ y, w_lock s ≠ Some t → cur (w_goto t x y s) = cur s) as Hcur.
    { intros y Hne. apply cur_eq; [done|]. intros u Hu. simpl. rewrite list_lookup_insert_ne; [done|]. congruence. }
    assert (∀ o w y log, w_lock s = Some t → cur (WSt o w (Some t) (<[t := y]> (w_thr s)) log) =
       match wt_pc y with WWrite fs => pair t <$> take (length (wt_frames y) - length fs) (wt_frames y) | _ => [] end) as Hcur2.
    { intros o w y log H. unfold cur. simpl. rewrite list_lookup_insert by (by eapply lookup_lt_Some). done. }
    assert (cur s = match wt_pc x with WWrite fs => if decide (w_lock s = Some t) then pair t <$> take (length (wt_frames x) - length fs) (wt_frames x) else cur s
              | _ => if decide (w_lock s = Some t) then [] else cur s end) as Hc.
    { destruct (decide (w_lock s = Some t)) as [El|El]; [|by destruct (wt_pc x)]. unfold cur. rewrite El, Ht. done. }
    unfold w_goto, w_set_lock. cbn [w_open w_writable w_lock w_thr w_log].
    destruct (wt_pc x) as [| | |[|f fs]|r|r] eqn:Epc; cbn [in_cs] in *.
    + intros [= <-]. assert (w_lock s ≠ Some t) as Hne by (intros H; by specialize (Hown H)).
      apply winv_run; try done; auto.
      * unfold wknow. simpl. destruct (w_open s) eqn:Eo; [done|]. split; [|by eapply at_moment_now].
        unfold wknow in Hkn. rewrite Epc in Hkn. destruct Hkn as (v&fs&Hkn). exists v, fs. rewrite wcalls_snoc. by apply lookup_app_l_Some.
      * by destruct (w_open s).
      * intros fs. by destruct (w_open s).
      * intros ts Hnd Hlog Htx. left. split; [|unfold has_written; rewrite Epc; simpl; by destruct (w_open s)].
        rewrite Hlog. f_equal. symmetry. by apply (Hcur _ Hne).
    + destruct (w_lock s) as [u|] eqn:El; [done|]. intros [= <-].
      apply winv_run; try done; auto.
      * intros u [= <-]. auto.
      * intros ts Hnd Hlog Htx. left. split; [|unfold has_written; by rewrite Epc].
        rewrite Hlog. unfold cur. simpl. rewrite El, list_lookup_insert by (by eapply lookup_lt_Some). done.
    + intros [= <-]. specialize (Hlk eq_refl). rewrite Hlk, decide_True in Hc by done.
      apply winv_run; try done; auto.
      * unfold wknow. simpl. destruct (wt_vol x) eqn:Ev; simpl; [|done]. destruct (w_writable s) eqn:Ew; simpl.
        -- intros _. by eapply at_moment_now.
        -- split; [done|]. by eapply at_moment_now.
      * intros _. by destruct (wt_vol x && negb (w_writable s)).
      * intros fs. destruct (wt_vol x && negb (w_writable s)); [done|]. intros [= <-]. by exists [].
      * intros ts Hnd Hlog Htx. left. split; [|unfold has_written; rewrite Epc; simpl; by destruct (wt_vol x && negb (w_writable s))].
        rewrite Hlog, Hc, Hlk, Hcur2 by done. simpl. destruct (wt_vol x && negb (w_writable s)); [done|].
        by rewrite Nat.sub_diag.
    + intros [= <-]. specialize (Hlk eq_refl). rewrite Hlk, decide_True in Hc by done.
      apply winv_run; try done; auto.
      * unfold wknow in *. simpl. rewrite Epc in Hkn. intros Hv. by apply at_moment_mono, Hkn.
      * intros ts Hnd Hlog Htx. right. split; [|unfold has_written; by rewrite Epc].
        rewrite Hlog, Hc, Hlk, Hcur2 by done. simpl. rewrite app_nil_r. f_equal. unfold block. rewrite Hfr. f_equal.
        rewrite Nat.sub_0_r. by rewrite firstn_all.
    + intros [= <-]. specialize (Hlk eq_refl). rewrite Hlk, decide_True in Hc by done.
      destruct (wi_suf _ _ Hi _ _ _ Ht Epc) as [pre Hpre].
      apply winv_run; try done; auto.
      * unfold wknow in *. simpl. rewrite Epc in Hkn. intros Hv. by apply at_moment_mono, Hkn.
      * intros fs' [= <-]. exists (pre ++ [f]). by rewrite <- app_assoc.
      * intros ts Hnd Hlog Htx. left. split; [|unfold has_written; by rewrite Epc].
        rewrite Hlog, Hc, Hlk, Hcur2 by done. simpl. rewrite <- app_assoc. f_equal.
        rewrite Hpre, app_length. simpl. replace (length pre + S (length fs) - S (length fs)) with (length pre) by lia.
        replace (length pre + S (length fs) - length fs) with (S (length pre)) by lia.
        rewrite (take_S_r _ _ f) by (by apply list_lookup_middle). rewrite take_app, fmap_app. done.
    + intros [= <-]. specialize (Hlk eq_refl). rewrite Hlk, decide_True in Hc by done.
      apply winv_run; try done; auto.
      * unfold wknow in *. rewrite Epc in Hkn. simpl. destruct r; [done| |].
        -- destruct Hkn. split; [done|by apply at_moment_mono].
        -- intros Hv. by apply at_moment_mono, Hkn.
      * intros ts Hnd Hlog Htx. left. split; [|unfold has_written; by rewrite Epc].
        rewrite Hlog, Hc. done.
    + done.
Qed.

Lemma winv0 : winv [] wst0.
Proof.
  split; try done. exists []. split; [constructor|]. split; [done|]. intros t. rewrite elem_of_nil. split; [done|]. by intros (x&Hx&_).
Qed.
Lemma wexec_inv ls s : wexec ls wst0 = Some s → winv ls s.
Proof. apply (wexec_ind winv); [apply winv0|]. intros. by eapply winv_step. Qed.

Lemma cur_prefix ls s : winv ls s → ∃ t, cur s `prefix_of` block ls t ∧ (cur s ≠ [] → w_lock s = Some t ∧ ∃ x fs, w_thr s !! t = Some x ∧ wt_pc x = WWrite fs).
Proof.
  intros Hi. unfold cur. destruct (w_lock s) as [t|] eqn:El; [|by exists 0; split; [apply prefix_nil|]].
  exists t. destruct (w_thr s !! t) as [x|] eqn:Ht; [|by split; [apply prefix_nil|]].
  destruct (wt_pc x) as [| | |fs|r|r] eqn:Epc; try (by split; [apply prefix_nil|]). split; [|eauto].
  unfold block. rewrite (frames_thr _ _ _ _ Hi Ht).
  exists (pair t <$> drop (length (wt_frames x) - length fs) (wt_frames x)). rewrite <- fmap_app. by rewrite take_drop.
Qed.
Lemma contiguous ls s : wexec ls wst0 = Some s →
  ∃ (ts : list nat) (t : nat) (part : list (nat * string)), NoDup ts ∧ w_log s = concat (block ls <$> ts) ++ part ∧
    part `prefix_of` block ls t ∧ (part ≠ [] → w_lock s = Some t ∧ t ∉ ts).
Proof.
  intros H. pose proof (wexec_inv _ _ H) as Hi. destruct (cur_prefix _ _ Hi) as (t&Hp&Hq). destruct (wi_log _ _ Hi) as (ts&Hnd&Hl&Hts).
  exists ts, t, (cur s). split_and!; try done. intros Hne. destruct (Hq Hne) as (Hlk&x&fs&Hx&Hpc). split; [done|].
  rewrite Hts. intros (y&Hy&Hw). rewrite Hx in Hy. injection Hy as <-. unfold has_written in Hw. by rewrite Hpc in Hw.
Qed.

Lemma not_in_blocks ls (ts : list nat) t p : p ∈ concat (block ls <$> ts) → p.1 = t → t ∈ ts.
Proof.
  intros Hp Ht. apply elem_of_list_In, in_concat in Hp as (b&Hb&Hp). apply elem_of_list_In in Hb, Hp.
  apply elem_of_list_fmap in Hb as (u&->&Hu). apply elem_of_list_fmap in Hp as (f&->&_). simpl in Ht. by subst.
Qed.
Lemma cur_owner s p : p ∈ cur s → w_lock s = Some p.1 ∧ ∃ x fs, w_thr s !! p.1 = Some x ∧ wt_pc x = WWrite fs.
Proof.
  unfold cur. destruct (w_lock s) as [t|] eqn:El; [|by intros ?%elem_of_nil].
  destruct (w_thr s !! t) as [x|] eqn:Ht; [|by intros ?%elem_of_nil].
  destruct (wt_pc x) as [| | |fs|r|r] eqn:Epc; try (by intros ?%elem_of_nil).
  intros (f&->&_)%elem_of_list_fmap. simpl. eauto.
Qed.
Lemma write_result ls s t r : wexec ls wst0 = Some s → returned s t r →
  ∃ via v fs, wcalls ls !! t = Some (via, v, fs) ∧
  match r with
  | WWritten => (∃ l1 l2, w_log s = l1 ++ block ls t ++ l2 ∧ ∀ p, p ∈ l1 ++ l2 → p.1 ≠ t) ∧
                (v = true → at_moment ls t WCheck (λ s, w_writable s = true))
  | WDiscarded => v = true ∧ at_moment ls t WCheck (λ s, w_writable s = false) ∧ ∀ p, p ∈ w_log s → p.1 ≠ t
  | WIgnored => via = true ∧ at_moment ls t WReady (λ s, w_open s = false) ∧ ∀ p, p ∈ w_log s → p.1 ≠ t
  end.
Proof.
  intros H (x&Hx&Hpc). pose proof (wexec_inv _ _ H) as Hi. pose proof (wi_know _ _ Hi _ _ Hx) as Hk. unfold wknow in Hk. rewrite Hpc in Hk.
  pose proof (wi_thr _ _ Hi) as Hth. apply (f_equal (.!! t)) in Hth. rewrite !list_lookup_fmap, Hx in Hth. simpl in Hth.
  destruct (wcalls ls !! t) as [[[via v] fs]|] eqn:Ec; [|done]. simpl in Hth. injection Hth as Hv Hfs.
  exists via, v, fs. split; [done|]. destruct (wi_log _ _ Hi) as (ts&Hnd&Hl&Hts).
  assert (∀ p, p ∈ cur s → p.1 ≠ t) as Hcur.
  { intros p Hp Hq. destruct (cur_owner s p Hp) as (_&y&fs'&Hy&Hyp). rewrite Hq, Hx in Hy. congruence. }
  assert (t ∉ ts → ∀ p, p ∈ w_log s → p.1 ≠ t) as Hno.
  { intros Hn p Hp Hq. rewrite Hl in Hp. apply elem_of_app in Hp as [Hp|Hp]; [|by apply (Hcur p)]. by apply Hn, (not_in_blocks ls ts t p). }
  assert (t ∈ ts → r = WWritten) as Hw.
  { rewrite Hts. intros (y&Hy&Hw). rewrite Hx in Hy. injection Hy as <-. unfold has_written in Hw. rewrite Hpc in Hw. by destruct r. }
  destruct r.
  - destruct Hk as [(v'&fs'&E) Hm]. split; [congruence|]. split; [done|]. apply Hno. intros Hin. by specialize (Hw Hin).
  - destruct Hk as [E Hm]. split; [congruence|]. split; [done|]. apply Hno. intros Hin. by specialize (Hw Hin).
  - split; [|intros ->; by apply Hk]. assert (t ∈ ts) as Hin. { rewrite Hts. exists x. split; [done|]. unfold has_written. by rewrite Hpc. }
    apply elem_of_list_split in Hin as (ts1&ts2&->). exists (concat (block ls <$> ts1)), (concat (block ls <$> ts2) ++ cur s).
    split. { rewrite Hl, fmap_app, fmap_cons, concat_app. simpl. by rewrite <- !app_assoc. }
    apply NoDup_app in Hnd as (_&Hd1&Hd2). apply NoDup_cons in Hd2 as [Hd2 _].
    intros p Hp Hq. rewrite !elem_of_app in Hp. destruct Hp as [Hp|[Hp|Hp]].
    + apply (Hd1 t); [by apply (not_in_blocks ls ts1 t p)|by left].
    + apply Hd2. by apply (not_in_blocks ls ts2 t p).
    + by apply (Hcur p).
Qed.

(** The log only grows, and a call that has returned adds nothing. *)
Lemma wstep_log l s s' : wstep l s = Some s' → ∃ more, w_log s' = w_log s ++ more ∧
  ∀ t r, returned s t r → returned s' t r ∧ ∀ p, p ∈ more → p.1 ≠ t.
Proof.
  destruct l as [v fs|v fs|o w|t]; cbn [wstep].
  - intros [= <-]. exists []. rewrite app_nil_r. split; [done|]. intros t r (x&Hx&?). split; [|intros p Hp; by apply elem_of_nil in Hp].
    exists x. split; [by apply lookup_app_l_Some|done].
  - intros [= <-]. exists []. rewrite app_nil_r. split; [done|]. intros t r (x&Hx&?). split; [|intros p Hp; by apply elem_of_nil in Hp].
    exists x. split; [by apply lookup_app_l_Some|done].
  - intros [= <-]. exists []. rewrite app_nil_r. split; [done|]. intros t r Hr. split; [done|]. intros p Hp. by apply elem_of_nil in Hp.
  - destruct (w_thr s !! t) as [x|] eqn:Ht; [|done]. intros Hs.
    assert (∀ u r y, returned s u r → w_thr s' = <[t := y]> (w_thr s) → u ≠ t ∧ returned s' u r) as Hr.
    { intros u r y (z&Hz&Hp) E. assert (u ≠ t) as Hne. { intros ->. rewrite Ht in Hz. injection Hz as <-. unfold wstep_thr in Hs. by rewrite Hp in Hs. }
      split; [done|]. exists z. by rewrite E, list_lookup_insert_ne. }
    unfold wstep_thr in Hs. destruct (wt_pc x) as [| | |[|f fs]|r0|r0]; simplify_eq.
    + exists []. rewrite app_nil_r. split; [done|]. intros u r Hu. destruct (Hr u r _ Hu eq_refl). split; [done|]. intros p Hp. by apply elem_of_nil in Hp.
    + destruct (w_lock s); simplify_eq. exists []. rewrite app_nil_r. split; [done|]. intros u r Hu. destruct (Hr u r _ Hu eq_refl). split; [done|]. intros p Hp. by apply elem_of_nil in Hp.
    + exists []. rewrite app_nil_r. split; [done|]. intros u r Hu. destruct (Hr u r _ Hu eq_refl). split; [done|]. intros p Hp. by apply elem_of_nil in Hp.
    + exists []. rewrite app_nil_r. split; [done|]. intros u r Hu. destruct (Hr u r _ Hu eq_refl). split; [done|]. intros p Hp. by apply elem_of_nil in Hp.
    + exists [(t, f)]. split; [done|]. intros u r Hu. destruct (Hr u r _ Hu eq_refl). split; [done|]. intros p Hp. apply elem_of_list_singleton in Hp as ->. simpl. auto.
    + exists []. rewrite app_nil_r. split; [done|]. intros u r Hu. destruct (Hr u r _ Hu eq_refl). split; [done|]. intros p Hp. by apply elem_of_nil in Hp.
Qed.
Lemma wexec_log ls : ∀ s s', wexec ls s = Some s' → ∃ more, w_log s' = w_log s ++ more ∧
  ∀ t r, returned s t r → returned s' t r ∧ ∀ p, p ∈ more → p.1 ≠ t.
Proof.
  induction ls as [|l ls IH]; intros s s'; simpl.
  - intros [= <-]. exists []. rewrite app_nil_r. split; [done|]. intros t r Hr. split; [done|]. intros p Hp. by apply elem_of_nil in Hp.
  - destruct (wstep l s) as [s1|] eqn:E; [|done]. intros H. destruct (wstep_log _ _ _ E) as (m1&H1&H2). destruct (IH _ _ H) as (m2&H3&H4).
    exists (m1 ++ m2). split; [by rewrite H3, H1, app_assoc|]. intros t r Hr. destruct (H2 t r Hr) as [Hr1 Hm1]. destruct (H4 t r Hr1) as [Hr2 Hm2].
    split; [done|]. intros p [Hp|Hp]%elem_of_app; auto.
Qed.
Lemma write_order ls1 ls2 s1 s t u r : wexec ls1 wst0 = Some s1 → wexec (ls1 ++ ls2) wst0 = Some s →
  returned s1 t r → length (wcalls ls1) ≤ u →
  ∃ l1 l2, w_log s = l1 ++ l2 ∧ (∀ p, p ∈ l1 → p.1 ≠ u) ∧ (∀ p, p ∈ l2 → p.1 ≠ t).
Proof.
  intros H1 H Hr Hu. rewrite wexec_app, H1 in H. simpl in H. destruct (wexec_log _ _ _ H) as (more&Hl&Hm).
  exists (w_log s1), more. split; [done|]. split; [|by apply (Hm t r)]. intros p Hp Hq.
  pose proof (wexec_inv _ _ H1) as Hi. destruct (wi_log _ _ Hi) as (ts&_&Hl1&Hts). rewrite Hl1 in Hp.
  assert (∃ x, w_thr s1 !! u = Some x) as [x Hx].
  { apply elem_of_app in Hp as [Hp|Hp].
    - assert (u ∈ ts) as Hin by (by apply (not_in_blocks ls1 ts u p)). rewrite Hts in Hin. destruct Hin as (x&?&_). eauto.
    - destruct (cur_owner _ _ Hp) as (_&x&_&Hx&_). rewrite Hq in Hx. eauto. }
  apply lookup_lt_Some in Hx. rewrite <- (wcalls_len _ _ Hi) in Hx. lia.
Qed.
