(** Proofs about emissions to several connections. *)
From Verif Require Import Base Emissions EmissionsSpec.

Lemma e_run_app ps l1 l2 : e_run ps (l1 ++ l2) = foldl e_step (e_run ps l1) l2.
Proof. unfold e_run. by rewrite foldl_app. Qed.
Lemma e_run_snoc ps ls l : e_run ps (ls ++ [l]) = e_step (e_run ps ls) l.
Proof. by rewrite e_run_app. Qed.

(** The steps. *)
Inductive estep (s : est) : elabel → est → Prop :=
  | es_stay l : estep s l s
  | es_env c o w : estep s (inr (c, o, w)) (e_conn c (EConn o w (ec_lock (es_conn s c)) (ec_log (es_conn s c))) s)
  | es_ignore t x w : es_thr s !! t = Some x → et_writes x !! length (et_res x) = Some w → et_pc x = EEnter → em_via (ew_em w) = true →
      ec_open (es_conn s (ew_conn w)) = false → estep s (inl t) (e_next t x EIgnored s)
  | es_enter t x w : es_thr s !! t = Some x → et_writes x !! length (et_res x) = Some w → et_pc x = EEnter → estep s (inl t) (e_goto t x ELock s)
  | es_lock t x w : es_thr s !! t = Some x → et_writes x !! length (et_res x) = Some w → et_pc x = ELock → ec_lock (es_conn s (ew_conn w)) = None →
      estep s (inl t) (e_goto t x ECheck (e_conn (ew_conn w) (e_lock (Some t) (es_conn s (ew_conn w))) s))
  | es_discard t x w : es_thr s !! t = Some x → et_writes x !! length (et_res x) = Some w → et_pc x = ECheck → em_vol (ew_em w) = true →
      ec_writable (es_conn s (ew_conn w)) = false → estep s (inl t) (e_goto t x (EUnlock EDiscarded) s)
  | es_pass t x w : es_thr s !! t = Some x → et_writes x !! length (et_res x) = Some w → et_pc x = ECheck →
      (em_vol (ew_em w) = true → ec_writable (es_conn s (ew_conn w)) = true) → estep s (inl t) (e_goto t x (EFrames 0) s)
  | es_frame t x w n f : es_thr s !! t = Some x → et_writes x !! length (et_res x) = Some w → et_pc x = EFrames n → em_frames (ew_em w) !! n = Some f →
      estep s (inl t) (e_goto t x (EFrames (S n)) (e_conn (ew_conn w) (EConn (ec_open (es_conn s (ew_conn w))) (ec_writable (es_conn s (ew_conn w)))
        (ec_lock (es_conn s (ew_conn w))) (ec_log (es_conn s (ew_conn w)) ++ [(t, length (et_res x), f)])) s))
  | es_end t x w n : es_thr s !! t = Some x → et_writes x !! length (et_res x) = Some w → et_pc x = EFrames n → em_frames (ew_em w) !! n = None →
      estep s (inl t) (e_goto t x (EUnlock EWritten) s)
  | es_unlock t x w r : es_thr s !! t = Some x → et_writes x !! length (et_res x) = Some w → et_pc x = EUnlock r →
      estep s (inl t) (e_next t x r (e_conn (ew_conn w) (e_lock None (es_conn s (ew_conn w))) s)).
Lemma e_step_inv s l : estep s l (e_step s l).
Proof.
  destruct l as [t|[[c o] w]]; [|apply es_env]. unfold e_step. destruct (es_thr s !! t) as [x|] eqn:Ex; [|constructor].
  destruct (et_writes x !! length (et_res x)) as [w|] eqn:Ew; [|constructor]. unfold e_thread. destruct (et_pc x) eqn:Ep.
  - destruct (em_via (ew_em w)) eqn:Ev; cbn [andb]; [destruct (ec_open _) eqn:Eo; cbn [negb]|]; [solve [eapply es_enter; eauto]|solve [eapply es_ignore; eauto]|solve [eapply es_enter; eauto]].
  - destruct (ec_lock (es_conn s (ew_conn w))) eqn:El; [constructor|solve [eapply es_lock; eauto]].
  - destruct (em_vol (ew_em w)) eqn:Ev; cbn [andb]; [destruct (ec_writable _) eqn:Eo; cbn [negb]|]; [solve [eapply es_pass; eauto]|solve [eapply es_discard; eauto]|eapply es_pass; eauto; congruence].
  - destruct (em_frames (ew_em w) !! n) eqn:En; [solve [eapply es_frame; eauto]|solve [eapply es_end; eauto]].
  - solve [eapply es_unlock; eauto].
Qed.

(** ** Invariant *)
Definition inside (pc : epc) : Prop := match pc with ECheck | EFrames _ | EUnlock _ => True | _ => False end.
Definition owned (x : ethread) (c i : nat) : Prop :=
  ∃ w, et_writes x !! i = Some w ∧ ew_conn w = c ∧ (et_res x !! i = Some EWritten ∨ i = length (et_res x) ∧ et_pc x = EUnlock EWritten).
Definition blk (x : ethread) (t i : nat) : list (nat * nat * string) :=
  match et_writes x !! i with Some w => (λ f, (t, i, f)) <$> em_frames (ew_em w) | None => [] end.
Definition part_of (s : est) (c : nat) : list (nat * nat * string) :=
  match ec_lock (es_conn s c) with
  | Some t => match es_thr s !! t with Some x => match et_pc x with EFrames n => take n (blk x t (length (et_res x))) | _ => [] end | None => [] end
  | None => []
  end.
Record einv (ps : list (list emission)) (s : est) : Prop := {
  ei_writes : et_writes <$> es_thr s = writes <$> ps;
  ei_pc : ∀ t x, es_thr s !! t = Some x → length (et_res x) ≤ length (et_writes x) ∧ (et_pc x ≠ EEnter → length (et_res x) < length (et_writes x));
  ei_frames : ∀ t x w n, es_thr s !! t = Some x → et_writes x !! length (et_res x) = Some w → et_pc x = EFrames n → n ≤ length (em_frames (ew_em w));
  ei_lock : ∀ c t, ec_lock (es_conn s c) = Some t ↔
    ∃ x w, es_thr s !! t = Some x ∧ et_writes x !! length (et_res x) = Some w ∧ ew_conn w = c ∧ inside (et_pc x);
  ei_log : ∀ c, ∃ ids, NoDup ids ∧ (∀ t i, (t, i) ∈ ids ↔ ∃ x, es_thr s !! t = Some x ∧ owned x c i) ∧
    (∀ a b t i j, ids !! a = Some (t, i) → ids !! b = Some (t, j) → a < b → i < j) ∧
    ec_log (es_conn s c) = concat (block ps <$> ids) ++ part_of s c
}.
Lemma block_blk ps s t x i : einv ps s → es_thr s !! t = Some x → block ps (t, i) = blk x t i.
Proof.
  intros H Hx. unfold block, blk. cbn [fst snd]. pose proof (ei_writes _ _ H) as E. apply (f_equal (λ l, l !! t)) in E.
  rewrite !list_lookup_fmap, Hx in E. cbn in E. destruct (ps !! t) as [es|]; [|discriminate E]. cbn in E. injection E as ->. done.
Qed.
Lemma einv_start ps : einv ps (e_start ps).
Proof.
  constructor; cbn.
  - rewrite <- list_fmap_compose. by apply list_fmap_ext.
  - intros t x (es & _ & ->)%list_lookup_fmap_Some. cbn. split; [lia|done].
  - intros t x w n (es & _ & ->)%list_lookup_fmap_Some. done.
  - intros c t. split; [done|]. intros (x & w & (es & _ & ->)%list_lookup_fmap_Some & _ & _ & []).
  - intros c. exists []. split; [constructor|]. split; [|split; [done|done]].
    intros t i. split; [by intros ?%elem_of_nil|]. intros (x & (es & _ & ->)%list_lookup_fmap_Some & w & _ & _ & [H|[_ H]]); done.
Qed.

(** What a step does to one goroutine and one connection. *)
Lemma upd_thr (l : list ethread) t x y u z : l !! t = Some x → <[t:=y]> l !! u = Some z → (u = t ∧ z = y) ∨ (u ≠ t ∧ l !! u = Some z).
Proof.
  intros Hx H. destruct (decide (u = t)) as [->|Hn]; [left|right].
  - rewrite list_lookup_insert in H by (by eapply lookup_lt_Some). by injection H.
  - rewrite list_lookup_insert_ne in H by done. done.
Qed.
Lemma upd_writes (l : list ethread) t x y : l !! t = Some x → et_writes y = et_writes x → et_writes <$> <[t:=y]> l = et_writes <$> l.
Proof. intros Hx E. rewrite list_fmap_insert, E. apply list_insert_id. by rewrite list_lookup_fmap, Hx. Qed.
(** The mutexes: [x'] replaces [x], and the mutex of connection [c] becomes [l]. *)
Definition locks_ok (s : est) : Prop := ∀ c t, ec_lock (es_conn s c) = Some t ↔
    ∃ x w, es_thr s !! t = Some x ∧ et_writes x !! length (et_res x) = Some w ∧ ew_conn w = c ∧ inside (et_pc x).
Lemma locks_same s s' t x x' : locks_ok s → es_thr s !! t = Some x → es_thr s' = <[t:=x']> (es_thr s) → (∀ d, ec_lock (es_conn s' d) = ec_lock (es_conn s d)) →
  (∀ c, (∃ w, et_writes x !! length (et_res x) = Some w ∧ ew_conn w = c ∧ inside (et_pc x)) ↔ (∃ w, et_writes x' !! length (et_res x') = Some w ∧ ew_conn w = c ∧ inside (et_pc x'))) →
  locks_ok s'.
Proof.
  intros H Hx Et El Hi c u. rewrite El, (H c u), Et. destruct (decide (u = t)) as [->|Hn].
  - rewrite list_lookup_insert by (by eapply lookup_lt_Some). split.
    + intros (y & w & Hy & Hw). assert (y = x) as -> by congruence. destruct (proj1 (Hi c)) as (w' & Hw'); [by exists w|]. by exists x', w'.
    + intros (y & w & [= <-] & Hw). destruct (proj2 (Hi c)) as (w' & Hw'); [by exists w|]. by exists x, w'.
  - by rewrite list_lookup_insert_ne.
Qed.
Lemma locks_change s s' t x x' c l : locks_ok s → es_thr s !! t = Some x → es_thr s' = <[t:=x']> (es_thr s) →
  (∀ d, d ≠ c → ec_lock (es_conn s' d) = ec_lock (es_conn s d)) → ec_lock (es_conn s' c) = l →
  (∀ u, u ≠ t → ec_lock (es_conn s c) ≠ Some u) → (∀ d, d ≠ c → ec_lock (es_conn s d) ≠ Some t) →
  (∀ u, l = Some u → u = t) → (∀ d, l = Some t ∧ d = c ↔ (∃ w, et_writes x' !! length (et_res x') = Some w ∧ ew_conn w = d ∧ inside (et_pc x'))) →
  locks_ok s'.
Proof.
  intros H Hx Et Ed Ec Hc Hd Hl Hi d u. rewrite Et. destruct (decide (u = t)) as [->|Hn].
  - rewrite list_lookup_insert by (by eapply lookup_lt_Some). transitivity (l = Some t ∧ d = c).
    + destruct (decide (d = c)) as [->|Hdc]; [rewrite Ec; naive_solver|]. rewrite Ed by done. split; [intros E; by destruct (Hd d Hdc)|by intros [_ ?]].
    + rewrite Hi. split.
      * intros (w & Hw). by exists x', w.
      * intros (y & w & [= <-] & Hw). by exists w.
  - rewrite list_lookup_insert_ne by done. rewrite <- (H d u). destruct (decide (d = c)) as [->|Hdc]; [|by rewrite Ed].
    rewrite Ec. split; [intros E; by destruct Hn; apply Hl|intros E; by destruct (Hc u Hn)].
Qed.
(** The connections: [x'] replaces [x]. *)
Definition logs_ok (ps : list (list emission)) (s : est) : Prop := ∀ c, ∃ ids, NoDup ids ∧ (∀ t i, (t, i) ∈ ids ↔ ∃ x, es_thr s !! t = Some x ∧ owned x c i) ∧
    (∀ a b t i j, ids !! a = Some (t, i) → ids !! b = Some (t, j) → a < b → i < j) ∧
    ec_log (es_conn s c) = concat (block ps <$> ids) ++ part_of s c.
Lemma logs_same ps s s' t x x' : logs_ok ps s → es_thr s !! t = Some x → es_thr s' = <[t:=x']> (es_thr s) → (∀ c i, owned x' c i ↔ owned x c i) →
  (∀ c, ∃ new, ec_log (es_conn s' c) = ec_log (es_conn s c) ++ new ∧ part_of s' c = part_of s c ++ new) → logs_ok ps s'.
Proof.
  intros H Hx Et Ho Hl c. destruct (H c) as (ids & Hnd & Hids & Hs & E). exists ids. split; [done|]. split; [|split; [done|]].
  - intros u i. rewrite Hids, Et. destruct (decide (u = t)) as [->|Hn].
    + rewrite list_lookup_insert by (by eapply lookup_lt_Some). split.
      * intros (y & Hy & Hw). assert (y = x) as -> by congruence. exists x'. split; [done|]. by apply Ho.
      * intros (y & [= <-] & Hw). exists x. split; [done|]. by apply Ho.
    + by rewrite list_lookup_insert_ne.
  - destruct (Hl c) as (new & E1 & E2). by rewrite E1, E2, E, app_assoc.
Qed.
Lemma owned_same x x' c i : et_writes x' = et_writes x → et_res x' = et_res x → et_pc x ≠ EUnlock EWritten → et_pc x' ≠ EUnlock EWritten → owned x' c i ↔ owned x c i.
Proof. intros E1 E2 N1 N2. unfold owned. rewrite E1, E2. split; intros (w & Hw & Hc & [H|[_ H]]); try done; exists w; by auto. Qed.
Lemma owned_next x x' r c i : et_writes x' = et_writes x → et_res x' = et_res x ++ [r] → et_pc x' = EEnter → (et_pc x = EUnlock EWritten ↔ r = EWritten) →
  owned x' c i ↔ owned x c i.
Proof.
  intros E1 E2 E3 Hr. unfold owned. rewrite E1, E2, E3. split; intros (w & Hw & Hc & H); exists w; split; try done; split; try done.
  - destruct H as [H|[_ H]]; [|done]. destruct (decide (i < length (et_res x))) as [Hl|Hl]; [rewrite lookup_app_l in H by done; by left|].
    rewrite lookup_app_r in H by lia. right. destruct (i - length (et_res x)) eqn:E; [|by destruct n]. injection H as ->. split; [lia|]. by apply Hr.
  - left. destruct H as [H|[-> H]]; [by apply lookup_app_l_Some|]. rewrite list_lookup_middle by done. f_equal. by apply Hr.
Qed.
Definition part (x : ethread) (t : nat) : list (nat * nat * string) := match et_pc x with EFrames n => take n (blk x t (length (et_res x))) | _ => [] end.
Lemma part_of_eq s c : part_of s c = match ec_lock (es_conn s c) with Some t => match es_thr s !! t with Some x => part x t | None => [] end | None => [] end.
Proof. reflexivity. Qed.
Lemma part_same s s' t x x' c : es_thr s !! t = Some x → es_thr s' = <[t:=x']> (es_thr s) → ec_lock (es_conn s' c) = ec_lock (es_conn s c) →
  (ec_lock (es_conn s c) = Some t → part x' t = part x t) → part_of s' c = part_of s c.
Proof.
  intros Hx Et El Hp. rewrite !part_of_eq, El, Et. destruct (ec_lock (es_conn s c)) as [u|]; [|done]. destruct (decide (u = t)) as [->|Hn].
  - rewrite list_lookup_insert by (by eapply lookup_lt_Some). rewrite Hx. by apply Hp.
  - by rewrite list_lookup_insert_ne.
Qed.
Lemma e_conn_same c x s : es_conn (e_conn c x s) c = x.
Proof. cbn. by rewrite decide_True. Qed.
Lemma e_conn_ne c d x s : d ≠ c → es_conn (e_conn c x s) d = es_conn s d.
Proof. intros. cbn. by rewrite decide_False. Qed.
Lemma einv_goto ps s t x w pc : einv ps s → es_thr s !! t = Some x → et_writes x !! length (et_res x) = Some w →
  (inside (et_pc x) ↔ inside pc) → et_pc x ≠ EUnlock EWritten → pc ≠ EUnlock EWritten → (∀ n, et_pc x ≠ EFrames (S n)) → (∀ n, pc ≠ EFrames (S n)) →
  einv ps (e_goto t x pc s).
Proof.
  intros H Hx Hw Hi N1 N2 F1 F2. constructor.
  - cbn. rewrite (upd_writes _ _ x) by done. apply H.
  - cbn. intros u y Hy. destruct (upd_thr _ _ _ _ _ _ Hx Hy) as [[-> ->]|[_ Hy']]; [|by eapply (ei_pc _ _ H)]. cbn. apply lookup_lt_Some in Hw. lia.
  - cbn. intros u y v n Hy. destruct (upd_thr _ _ _ _ _ _ Hx Hy) as [[-> ->]|[_ Hy']]; [|by eapply (ei_frames _ _ H)]. cbn.
    intros _ ->. destruct n; [lia|by destruct (F2 n)].
  - apply (locks_same s _ t x (EThread (et_writes x) (et_res x) pc)); [exact (ei_lock _ _ H)|done|done|done|]. cbn. intros c. split; intros (v & ? & ? & ?); exists v; naive_solver.
  - apply (logs_same ps s _ t x (EThread (et_writes x) (et_res x) pc)); [exact (ei_log _ _ H)|done|done|intros; by apply owned_same|].
    intros c. exists []. rewrite !app_nil_r. split; [done|]. eapply part_same; [done|done|done|]. intros _. unfold part. cbn [et_pc et_writes et_res].
    assert (∀ q (l : list (nat * nat * string)), (∀ n, q ≠ EFrames (S n)) → match q with EFrames n => take n l | _ => [] end = []) as Hq.
    { intros q l Hq. destruct q as [| | |[|n]|]; try done. by destruct (Hq n). }
    by rewrite !Hq.
Qed.
Lemma einv_step ps s l : einv ps s → einv ps (e_step s l).
Proof.
  intros H. pose proof (e_step_inv s l) as Hs. revert Hs. generalize (e_step s l). intros s' Hs.
  destruct Hs as [l|c o w|t x w Hx Hw Hp Hv Ho|t x w Hx Hw Hp|t x w Hx Hw Hp Hl|t x w Hx Hw Hp Hv Ho|t x w Hx Hw Hp Hv|t x w n f Hx Hw Hp Hf|t x w n Hx Hw Hp Hf|t x w r Hx Hw Hp].
  - done.
  - constructor; [apply H|apply H|apply H| |].
    + intros d t. rewrite <- (ei_lock _ _ H d t). destruct (decide (d = c)) as [->|Hn]; [by rewrite e_conn_same|by rewrite e_conn_ne].
    + intros d. destruct (ei_log _ _ H d) as (ids & H1 & H2 & H3 & H4). exists ids. split; [done|]. split; [done|]. split; [done|].
      assert (part_of (e_conn c (EConn o w (ec_lock (es_conn s c)) (ec_log (es_conn s c))) s) d = part_of s d) as ->.
      { rewrite !part_of_eq. destruct (decide (d = c)) as [->|Hn]; [by rewrite e_conn_same|by rewrite e_conn_ne]. }
      rewrite <- H4. destruct (decide (d = c)) as [->|Hn]; [by rewrite e_conn_same|by rewrite e_conn_ne].
  - (* ignored *) constructor.
    + cbn. rewrite (upd_writes _ _ x) by done. apply H.
    + cbn. intros u y Hy. destruct (upd_thr _ _ _ _ _ _ Hx Hy) as [[-> ->]|[_ Hy']]; [|by eapply (ei_pc _ _ H)]. cbn. apply lookup_lt_Some in Hw. rewrite app_length. cbn. split; [lia|done].
    + cbn. intros u y v n Hy. destruct (upd_thr _ _ _ _ _ _ Hx Hy) as [[-> ->]|[_ Hy']]; [done|by eapply (ei_frames _ _ H)].
    + apply (locks_same s _ t x (EThread (et_writes x) (et_res x ++ [EIgnored]) EEnter)); [exact (ei_lock _ _ H)|done|done|done|]. cbn. rewrite Hp. intros c. split; intros (v & ? & ? & []).
    + apply (logs_same ps s _ t x (EThread (et_writes x) (et_res x ++ [EIgnored]) EEnter)); [exact (ei_log _ _ H)|done|done|intros; apply (owned_next _ _ EIgnored); [done|done|done|by rewrite Hp]|].
      intros c. exists []. rewrite !app_nil_r. split; [done|]. eapply part_same; [done|done|done|]. intros _. unfold part. cbn [et_pc]. by rewrite Hp.
  - eapply einv_goto; eauto; rewrite ?Hp; done.
  - (* lock *) set (c := ew_conn w) in *. set (x' := EThread (et_writes x) (et_res x) ECheck). assert (∀ d, ec_lock (es_conn s d) ≠ Some t) as Hno.
    { intros d E. apply (ei_lock _ _ H) in E as (y & v & Hy & _ & _ & Hin). assert (y = x) as -> by congruence. by rewrite Hp in Hin. }
    constructor.
    + cbn. rewrite (upd_writes _ _ x) by done. apply H.
    + cbn. intros u y Hy. destruct (upd_thr _ _ _ _ _ _ Hx Hy) as [[-> ->]|[_ Hy']]; [|by eapply (ei_pc _ _ H)]. cbn. apply lookup_lt_Some in Hw. lia.
    + cbn. intros u y v n Hy. destruct (upd_thr _ _ _ _ _ _ Hx Hy) as [[-> ->]|[_ Hy']]; [done|by eapply (ei_frames _ _ H)].
    + apply (locks_change s _ t x x' c (Some t)); [exact (ei_lock _ _ H)|done|done| | | | | |].
      * intros d Hd. cbn. by rewrite decide_False.
      * cbn. by rewrite decide_True.
      * intros u _. by rewrite Hl.
      * intros d _. apply Hno.
      * congruence.
      * intros d. cbn. split; [intros [_ ->]; by exists w|]. intros (v & Hv & <- & _). assert (v = w) as -> by congruence. done.
    + apply (logs_same ps s _ t x x'); [exact (ei_log _ _ H)|done|done|intros; apply owned_same; by rewrite ?Hp|].
      intros d. exists []. rewrite !app_nil_r. destruct (decide (d = c)) as [->|Hn].
      * split; [cbn; by rewrite decide_True|]. rewrite !part_of_eq. cbn. rewrite decide_True by done. cbn. rewrite Hl. rewrite list_lookup_insert by (by eapply lookup_lt_Some). done.
      * split; [cbn; by rewrite decide_False|]. eapply part_same; [done|done|cbn; by rewrite decide_False|]. intros E. by destruct (Hno d).
  - eapply einv_goto; eauto; rewrite ?Hp; done.
  - eapply einv_goto; eauto; rewrite ?Hp; done.
  - (* frame *) set (c := ew_conn w) in *. set (x' := EThread (et_writes x) (et_res x) (EFrames (S n))).
    assert (ec_lock (es_conn s c) = Some t) as Hl by (apply (ei_lock _ _ H); exists x, w; by rewrite Hp).
    constructor.
    + cbn. rewrite (upd_writes _ _ x) by done. apply H.
    + cbn. intros u y Hy. destruct (upd_thr _ _ _ _ _ _ Hx Hy) as [[-> ->]|[_ Hy']]; [|by eapply (ei_pc _ _ H)]. cbn. apply lookup_lt_Some in Hw. lia.
    + cbn. intros u y v m Hy. destruct (upd_thr _ _ _ _ _ _ Hx Hy) as [[-> ->]|[_ Hy']]; [|by eapply (ei_frames _ _ H)]. cbn. intros Hv [= <-].
      assert (v = w) as -> by congruence. apply lookup_lt_Some in Hf. lia.
    + apply (locks_same s _ t x x'); [exact (ei_lock _ _ H)|done|done| |].
      * intros d. cbn. destruct (decide (d = c)) as [->|Hn]; done.
      * intros d. cbn. rewrite Hp. done.
    + apply (logs_same ps s _ t x x'); [exact (ei_log _ _ H)|done|done|intros; apply owned_same; by rewrite ?Hp|].
      intros d. destruct (decide (d = c)) as [->|Hn].
      * exists [(t, length (et_res x), f)]. split; [cbn; by rewrite decide_True|]. rewrite !part_of_eq. cbn. rewrite decide_True by done. cbn. rewrite Hl, Hx.
        rewrite list_lookup_insert by (by eapply lookup_lt_Some). unfold part. cbn. rewrite Hp. unfold blk. cbn. rewrite Hw.
        apply take_S_r. by rewrite list_lookup_fmap, Hf.
      * exists []. rewrite !app_nil_r. split; [cbn; by rewrite decide_False|]. eapply part_same; [done|done|cbn; by rewrite decide_False|]. intros E.
        apply (ei_lock _ _ H) in E as (y & v & Hy & Hv & Hd & _). assert (y = x) as -> by congruence. assert (v = w) as -> by congruence. by destruct Hn.
  - (* end *) set (c := ew_conn w) in *. set (x' := EThread (et_writes x) (et_res x) (EUnlock EWritten)).
    assert (ec_lock (es_conn s c) = Some t) as Hl by (apply (ei_lock _ _ H); exists x, w; by rewrite Hp).
    assert (n = length (em_frames (ew_em w))) as Hn.
    { pose proof (ei_frames _ _ H _ _ _ _ Hx Hw Hp). apply lookup_ge_None in Hf. lia. }
    constructor.
    + cbn. rewrite (upd_writes _ _ x) by done. apply H.
    + cbn. intros u y Hy. destruct (upd_thr _ _ _ _ _ _ Hx Hy) as [[-> ->]|[_ Hy']]; [|by eapply (ei_pc _ _ H)]. cbn. apply lookup_lt_Some in Hw. lia.
    + cbn. intros u y v m Hy. destruct (upd_thr _ _ _ _ _ _ Hx Hy) as [[-> ->]|[_ Hy']]; [done|by eapply (ei_frames _ _ H)].
    + apply (locks_same s _ t x x'); [exact (ei_lock _ _ H)|done|done|done|]. intros d. cbn. rewrite Hp. done.
    + intros d. destruct (ei_log _ _ H d) as (ids & H1 & H2 & H3 & H4). destruct (decide (d = c)) as [->|Hd].
      * assert (∀ i, (t, i) ∈ ids → i < length (et_res x)) as Hlt.
        { intros i (y & Hy & v & _ & _ & [Hr|[_ Hr]])%H2; assert (y = x) as -> by congruence; [by eapply lookup_lt_Some|congruence]. }
        exists (ids ++ [(t, length (et_res x))]). split_and!.
        -- apply NoDup_app. split; [done|]. split; [|apply NoDup_singleton]. intros [u i] Hin Hin2%elem_of_list_singleton. injection Hin2 as -> ->. apply Hlt in Hin. lia.
        -- intros u i. rewrite elem_of_app, elem_of_list_singleton, H2. cbn. destruct (decide (u = t)) as [->|Hne].
           ++ rewrite list_lookup_insert by (by eapply lookup_lt_Some). split.
              ** intros [(y & Hy & v & Hv & Hc & Hr)|[= ->]]; exists x'; (split; [done|]).
                 --- assert (y = x) as -> by congruence. exists v. split; [done|]. split; [done|]. left. destruct Hr as [Hr|[_ Hr]]; [done|congruence].
                 --- exists w. split; [done|]. split; [done|]. by right.
              ** intros (y & [= <-] & v & Hv & Hc & [Hr|[-> _]]); [left|by right]. exists x. split; [done|]. exists v. by auto.
           ++ rewrite list_lookup_insert_ne by done. split; [intros [Hy|[= ? ?]]; done|by left].
        -- intros a b u i j Ha Hb Hab. apply lookup_app_Some in Hb as [Hb|[Hb1 Hb2]].
           ++ rewrite lookup_app_l in Ha by (apply lookup_lt_Some in Hb; lia). by eapply H3.
           ++ destruct (b - length ids) eqn:Eb; [|by destruct n0]. injection Hb2 as <- <-. rewrite lookup_app_l in Ha by lia. apply Hlt. by eapply elem_of_list_lookup_2.
        -- cbn. rewrite H4, fmap_app, concat_app, <- app_assoc. f_equal. cbn. rewrite (block_blk ps s t x) by done. unfold blk. rewrite Hw.
           rewrite !part_of_eq. cbn. rewrite Hl, Hx. rewrite list_lookup_insert by (by eapply lookup_lt_Some). unfold part. cbn. rewrite Hp. unfold blk. rewrite Hw, !app_nil_r.
           rewrite Hn, <- (fmap_length (λ f, (t, length (et_res x), f)) (em_frames (ew_em w))). by rewrite firstn_all.
      * exists ids. split_and!; [done| |done|].
        -- intros u i. rewrite H2. cbn. destruct (decide (u = t)) as [->|Hne]; [|by rewrite list_lookup_insert_ne].
           rewrite list_lookup_insert by (by eapply lookup_lt_Some). split.
           ++ intros (y & Hy & v & Hv & Hc & Hr). assert (y = x) as -> by congruence. exists x'. split; [done|]. exists v. split; [done|]. split; [done|]. left. destruct Hr as [Hr|[_ Hr]]; [done|congruence].
           ++ intros (y & [= <-] & v & Hv & Hc & [Hr|[-> _]]); [exists x; split; [done|]; exists v; by auto|]. cbn in Hv. assert (v = w) as -> by congruence. by destruct Hd.
        -- cbn. rewrite H4. f_equal. symmetry. eapply part_same; [done|done|done|]. intros E.
           apply (ei_lock _ _ H) in E as (y & v & Hy & Hv & Hd' & _). assert (y = x) as -> by congruence. assert (v = w) as -> by congruence. by destruct Hd.
  - (* unlock *) set (c := ew_conn w) in *. set (x' := EThread (et_writes x) (et_res x ++ [r]) EEnter).
    assert (ec_lock (es_conn s c) = Some t) as Hl by (apply (ei_lock _ _ H); exists x, w; by rewrite Hp).
    assert (∀ d, d ≠ c → ec_lock (es_conn s d) ≠ Some t) as Hno.
    { intros d Hd E. apply (ei_lock _ _ H) in E as (y & v & Hy & Hv & Hd' & _). assert (y = x) as -> by congruence. assert (v = w) as -> by congruence. by destruct Hd. }
    constructor.
    + cbn. rewrite (upd_writes _ _ x) by done. apply H.
    + cbn. intros u y Hy. destruct (upd_thr _ _ _ _ _ _ Hx Hy) as [[-> ->]|[_ Hy']]; [|by eapply (ei_pc _ _ H)]. cbn. apply lookup_lt_Some in Hw. rewrite app_length. cbn. split; [lia|done].
    + cbn. intros u y v m Hy. destruct (upd_thr _ _ _ _ _ _ Hx Hy) as [[-> ->]|[_ Hy']]; [done|by eapply (ei_frames _ _ H)].
    + apply (locks_change s _ t x x' c None); [exact (ei_lock _ _ H)|done|done| | | |done|done|].
      * intros d Hd. cbn. by rewrite decide_False.
      * cbn. by rewrite decide_True.
      * intros u Hu E. congruence.
      * intros d. cbn. split; [by intros [? _]|by intros (v & _ & _ & [])].
    + apply (logs_same ps s _ t x x'); [exact (ei_log _ _ H)|done|done|intros; apply (owned_next _ _ r); [done|done|done|rewrite Hp; split; congruence]|].
      intros d. exists []. rewrite !app_nil_r. destruct (decide (d = c)) as [->|Hn].
      * split; [cbn; by rewrite decide_True|]. rewrite !part_of_eq. cbn. rewrite decide_True by done. cbn. rewrite Hl, Hx. unfold part. by rewrite Hp.
      * split; [cbn; by rewrite decide_False|]. eapply part_same; [done|done|cbn; by rewrite decide_False|]. intros E. by destruct (Hno d).
Qed.
Lemma einv_run ps ls : einv ps (e_run ps ls).
Proof. induction ls as [|l ls IH] using rev_ind; [apply einv_start|]. rewrite e_run_snoc. by apply einv_step. Qed.

(** ** The connections *)
Lemma thr_write ps s t x i w : einv ps s → es_thr s !! t = Some x → et_writes x !! i = Some w ↔ is_write ps t i w ∧ es_thr s !! t = Some x.
Proof.
  intros H Hx. pose proof (ei_writes _ _ H) as E. apply (f_equal (λ l, l !! t)) in E. rewrite !list_lookup_fmap, Hx in E. cbn in E. unfold is_write.
  destruct (ps !! t) as [es|]; [|discriminate E]. cbn in E. injection E as E. rewrite E. split; [intros Hw; split; [by exists es|done]|by intros [(es' & [= <-] & Hw) _]].
Qed.
Lemma write_inj ps t i w v : is_write ps t i w → is_write ps t i v → w = v.
Proof. intros (es & H1 & H2) (es' & H3 & H4). congruence. Qed.
Lemma write_thr ps s t i w : einv ps s → is_write ps t i w → ∃ x, es_thr s !! t = Some x ∧ et_writes x !! i = Some w.
Proof.
  intros H (es & He & Hw). pose proof (ei_writes _ _ H) as E. apply (f_equal (λ l, l !! t)) in E. rewrite !list_lookup_fmap, He in E. cbn in E.
  destruct (es_thr s !! t) as [x|]; [|discriminate E]. cbn in E. injection E as E. exists x. split; [done|]. by rewrite E.
Qed.
Lemma block_write ps t i w : is_write ps t i w → block ps (t, i) = (λ f, (t, i, f)) <$> em_frames (ew_em w).
Proof. intros (es & H1 & H2). unfold block. cbn. by rewrite H1, H2. Qed.
Lemma in_block ps b x : x ∈ block ps b → x.1 = b.
Proof.
  destruct b as [t i]. unfold block. cbn. destruct (ps !! t) as [es|]; [|by intros ?%elem_of_nil]. destruct (writes es !! i) as [w|]; [|by intros ?%elem_of_nil].
  by intros (f & -> & _)%elem_of_list_fmap.
Qed.
Lemma run_blocks ps ls c : let s := e_run ps ls in ∃ ids part, NoDup ids ∧ ec_log (es_conn s c) = concat (block ps <$> ids) ++ part ∧
  (∀ t i, (t, i) ∈ ids → ∃ w, is_write ps t i w ∧ ew_conn w = c) ∧ (∀ t i w, returned s t i EWritten → is_write ps t i w → ew_conn w = c → (t, i) ∈ ids) ∧
  (∀ a b t i j, ids !! a = Some (t, i) → ids !! b = Some (t, j) → a < b → i < j) ∧
  (part = [] ∨ ∃ t i w, ec_lock (es_conn s c) = Some t ∧ is_write ps t i w ∧ ew_conn w = c ∧ (t, i) ∉ ids ∧ part `prefix_of` block ps (t, i)).
Proof.
  cbv zeta. pose proof (einv_run ps ls) as H. set (s := e_run ps ls) in *. destruct (ei_log _ _ H c) as (ids & H1 & H2 & H3 & H4). exists ids, (part_of s c). split_and!; try done.
  - intros t i (x & Hx & w & Hw & Hc & _)%H2. exists w. split; [|done]. by apply (thr_write ps s t x).
  - intros t i w (x & Hx & Hr) Hw Hc. apply H2. exists x. split; [done|]. exists w. split; [|split; [done|by left]]. by apply (thr_write ps s t x).
  - unfold part_of. destruct (ec_lock (es_conn s c)) as [t|] eqn:El; [|by left]. apply (ei_lock _ _ H) in El as (x & w & Hx & Hw & Hc & Hin).
    rewrite Hx. destruct (et_pc x) as [| | |n|r] eqn:Ep; try (by left). right. exists t, (length (et_res x)), w. split; [done|]. split; [by apply (thr_write ps s t x)|]. split; [done|]. split.
    + intros (y & Hy & v & _ & _ & [Hr|[_ Hr]])%H2; assert (y = x) as -> by congruence; [apply lookup_lt_Some in Hr; lia|congruence].
    + rewrite (block_blk ps s t x) by done. exists (drop n (blk x t (length (et_res x)))). by rewrite take_drop.
Qed.
(** What is on a connection was begun; the entries of a write are on its connection only. *)
Lemma log_begun ps s c t i f : einv ps s → (t, i, f) ∈ ec_log (es_conn s c) → begun s t i ∧ ∃ w, is_write ps t i w ∧ ew_conn w = c.
Proof.
  intros H Hin. destruct (ei_log _ _ H c) as (ids & H1 & H2 & H3 & H4). rewrite H4 in Hin. apply elem_of_app in Hin as [Hin|Hin].
  - apply elem_of_list_In, in_concat in Hin as (l & Hl & Hin). apply elem_of_list_In in Hl, Hin. apply elem_of_list_fmap in Hl as (b & -> & Hb).
    apply in_block in Hin. cbn in Hin. subst b. apply H2 in Hb as (x & Hx & w & Hw & Hc & Hr). split.
    + exists x. split; [done|]. destruct Hr as [Hr|[-> Hr]]; [left; by eapply lookup_lt_Some|right; split; [done|by rewrite Hr]].
    + exists w. split; [|done]. by apply (thr_write ps s t x).
  - unfold part_of in Hin. destruct (ec_lock (es_conn s c)) as [u|] eqn:El; [|by apply elem_of_nil in Hin]. apply (ei_lock _ _ H) in El as (x & w & Hx & Hw & Hc & Hi).
    rewrite Hx in Hin. destruct (et_pc x) as [| | |n|r] eqn:Ep; try (by apply elem_of_nil in Hin). apply elem_of_take in Hin as (a & Ha & _). apply elem_of_list_lookup_2 in Ha.
    unfold blk in Ha. rewrite Hw in Ha. apply elem_of_list_fmap in Ha as (g & [= -> -> ->] & _). split.
    + exists x. split; [done|]. right. split; [done|by rewrite Ep].
    + exists w. split; [|done]. by apply (thr_write ps s u x).
Qed.
(** How one step changes results and logs. *)
Lemma step_res s l t x : es_thr s !! t = Some x → ∃ y, es_thr (e_step s l) !! t = Some y ∧ et_writes y = et_writes x ∧ et_res x `prefix_of` et_res y.
Proof.
  intros Hx. pose proof (e_step_inv s l) as Hs. revert Hs. generalize (e_step s l). intros s' Hs.
  assert (∀ u z z', es_thr s !! u = Some z → et_writes z' = et_writes z → et_res z `prefix_of` et_res z' →
    ∃ y, <[u:=z']> (es_thr s) !! t = Some y ∧ et_writes y = et_writes x ∧ et_res x `prefix_of` et_res y) as Hu.
  { intros u z z' Hz Ew Er. destruct (decide (t = u)) as [->|Hn].
    - exists z'. rewrite list_lookup_insert by (by eapply lookup_lt_Some). assert (z = x) as -> by congruence. done.
    - exists x. rewrite list_lookup_insert_ne by done. done. }
  destruct Hs; cbn; try (by exists x); eapply Hu; eauto; cbn; try done; by apply prefix_app_r.
Qed.
Lemma step_log s l c : ec_log (es_conn (e_step s l) c) = ec_log (es_conn s c) ∨
  ∃ t x w f, l = inl t ∧ es_thr s !! t = Some x ∧ et_writes x !! length (et_res x) = Some w ∧ ew_conn w = c ∧ ec_log (es_conn (e_step s l) c) = ec_log (es_conn s c) ++ [(t, length (et_res x), f)].
Proof.
  pose proof (e_step_inv s l) as Hs. revert Hs. generalize (e_step s l). intros s' Hs.
  destruct Hs as [l|d o w|t x w Hx Hw Hp Hv Ho|t x w Hx Hw Hp|t x w Hx Hw Hp Hl|t x w Hx Hw Hp Hv Ho|t x w Hx Hw Hp Hv|t x w n f Hx Hw Hp Hf|t x w n Hx Hw Hp Hf|t x w r Hx Hw Hp];
    cbn; try (by left).
  - left. destruct (decide (c = d)) as [->|]; done.
  - left. destruct (decide (c = ew_conn w)) as [->|]; done.
  - destruct (decide (c = ew_conn w)) as [->|]; [|by left]. right. by exists t, x, w, f.
  - left. destruct (decide (c = ew_conn w)) as [->|]; done.
Qed.
Lemma run_res ps l1 l2 t x : es_thr (e_run ps l1) !! t = Some x → ∃ y, es_thr (e_run ps (l1 ++ l2)) !! t = Some y ∧ et_writes y = et_writes x ∧ et_res x `prefix_of` et_res y.
Proof.
  intros Hx. induction l2 as [|l l2 IH] using rev_ind; [rewrite app_nil_r; by exists x|]. destruct IH as (y & Hy & E & Hp). rewrite app_assoc, e_run_snoc.
  destruct (step_res _ l _ _ Hy) as (z & Hz & E' & Hp'). exists z. split; [done|]. split; [congruence|]. by etrans.
Qed.
Lemma run_log ps l1 l2 c : ∃ new, ec_log (es_conn (e_run ps (l1 ++ l2)) c) = ec_log (es_conn (e_run ps l1) c) ++ new ∧
  ∀ t i f, (t, i, f) ∈ new → ∀ x, es_thr (e_run ps l1) !! t = Some x → length (et_res x) ≤ i.
Proof.
  induction l2 as [|l l2 IH] using rev_ind; [rewrite app_nil_r; exists []; split; [by rewrite app_nil_r|by intros ??? ?%elem_of_nil]|].
  destruct IH as (new & E & Hn). rewrite app_assoc, e_run_snoc. destruct (step_log (e_run ps (l1 ++ l2)) l c) as [->|(t & x & w & f & -> & Hx & _ & _ & ->)]; [by exists new|].
  exists (new ++ [(t, length (et_res x), f)]). split; [by rewrite E, app_assoc|]. intros u i g [Hin|Hin%elem_of_list_singleton]%elem_of_app; [by eapply Hn|].
  injection Hin as -> -> ->. intros y Hy. destruct (run_res ps l1 l2 _ _ Hy) as (z & Hz & _ & Hp). assert (z = x) as -> by congruence. by apply prefix_length.
Qed.
Lemma run_order ps l1 l2 c t k u m : over ps (e_run ps l1) t k → ahead ps (e_run ps l1) u m → in_order ps (e_run ps (l1 ++ l2)) c t k u m.
Proof.
  intros Ho Ha. destruct (run_log ps l1 l2 c) as (new & E & Hn). exists (ec_log (es_conn (e_run ps l1) c)), new. split; [done|]. split.
  - intros [[a i] f] Hin (Ea & w & Hw & Em). cbn in *. subst a. eapply Ha; [exact Hw|done|]. by eapply log_begun, Hin; apply einv_run.
  - intros [[a i] f] Hin (Ea & w & Hw & Em). cbn in *. subst a. destruct (Ho i w Hw Em) as (r & x & Hx & Hr). apply (Hn _ _ _ Hin) in Hx. apply lookup_lt_Some in Hr. lia.
Qed.
(** The writes of a goroutine are in the order of its emissions. *)
Definition wr (g : nat → nat) (es : list emission) : list ewrite := concat (imap (λ n e, EWrite (g n) e <$> em_conns e) es).
Lemma wr_cons g e es : wr g (e :: es) = (EWrite (g 0) e <$> em_conns e) ++ wr (λ n, g (S n)) es.
Proof. done. Qed.
Lemma wr_num g es i w : (∀ a b, a < b → g a < g b) → wr g es !! i = Some w → ∃ k, ew_num w = g k ∧ es !! k = Some (ew_em w) ∧ ew_conn w ∈ em_conns (ew_em w).
Proof.
  revert g i. induction es as [|e es IH]; intros g i Hg; [done|]. rewrite wr_cons. intros [H|[_ H]]%lookup_app_Some.
  - apply list_lookup_fmap_Some in H as (c & Hc & ->). exists 0. cbn. split; [done|]. split; [done|]. by eapply elem_of_list_lookup_2.
  - apply IH in H as (k & E & Hk & Hc); [|intros; apply Hg; lia]. by exists (S k).
Qed.
Lemma wr_sorted g es i j w v : (∀ a b, a < b → g a < g b) → wr g es !! i = Some w → wr g es !! j = Some v → i ≤ j → ew_num w ≤ ew_num v.
Proof.
  revert g i j. induction es as [|e es IH]; intros g i j Hg; [done|]. rewrite wr_cons. intros Hi Hj Hij.
  apply lookup_app_Some in Hi as [Hi|[Hi1 Hi2]].
  - apply list_lookup_fmap_Some in Hi as (c & _ & ->). apply lookup_app_Some in Hj as [Hj|[_ Hj]].
    + apply list_lookup_fmap_Some in Hj as (d & _ & ->). done.
    + apply wr_num in Hj as (k & -> & _); [|intros; apply Hg; lia]. cbn. pose proof (Hg 0 (S k)). lia.
  - apply lookup_app_Some in Hj as [Hj|[_ Hj]]; [apply lookup_lt_Some in Hj; lia|]. eapply IH; [|exact Hi2|exact Hj|lia]. intros; apply Hg; lia.
Qed.
Lemma wr_has g es k e c : es !! k = Some e → c ∈ em_conns e → ∃ i, wr g es !! i = Some (EWrite (g k) e c).
Proof.
  revert g k. induction es as [|e' es IH]; intros g k; [done|]. rewrite wr_cons. destruct k as [|k]; cbn; intros H Hc.
  - injection H as ->. apply elem_of_list_lookup in Hc as (i & Hi). exists i. apply lookup_app_l_Some. by rewrite list_lookup_fmap, Hi.
  - destruct (IH (λ n, g (S n)) k H Hc) as (i & Hi). exists (length (EWrite (g 0) e' <$> em_conns e') + i). by rewrite lookup_app_r, Nat.add_comm, Nat.add_sub by lia.
Qed.
Lemma writes_wr es : writes es = wr (λ n, n) es.
Proof. done. Qed.
Lemma write_sorted ps t i j w v : is_write ps t i w → is_write ps t j v → i ≤ j → ew_num w ≤ ew_num v.
Proof. intros (es & H1 & H2) (es' & H3 & H4) Hij. assert (es' = es) as -> by congruence. rewrite writes_wr in H2, H4. eapply wr_sorted; [|exact H2|exact H4|done]. done. Qed.
Lemma write_is ps t i w : is_write ps t i w → ∃ es, ps !! t = Some es ∧ es !! ew_num w = Some (ew_em w) ∧ ew_conn w ∈ em_conns (ew_em w).
Proof. intros (es & H1 & H2). rewrite writes_wr in H2. apply wr_num in H2 as (k & -> & Hk & Hc); [|done]. by exists es. Qed.
Lemma write_has ps t es k e c : ps !! t = Some es → es !! k = Some e → c ∈ em_conns e → ∃ i, is_write ps t i (EWrite k e c).
Proof. intros H1 H2 H3. destruct (wr_has (λ n, n) es k e c H2 H3) as (i & Hi). exists i, es. by rewrite writes_wr. Qed.
Lemma run_program ps ls c t k m : k < m → in_order ps (e_run ps ls) c t k t m.
Proof.
  intros Hkm. induction ls as [|l ls IH] using rev_ind; [exists [], []; split; [done|]; by split; intros ? ?%elem_of_nil|].
  destruct IH as (l1 & l2 & E & H1 & H2). rewrite e_run_snoc. destruct (step_log (e_run ps ls) l c) as [El|(u & x & w & f & -> & Hx & Hw & Hc & El)].
  { exists l1, l2. rewrite El. done. }
  pose proof (einv_run ps ls) as H. pose proof (proj1 (proj1 (thr_write ps _ u x _ _ H Hx) Hw)) as Hw'. clear Hw. rename Hw' into Hw. destruct (decide (u = t ∧ ew_num w = k)) as [[-> Ek]|Hn].
  - exists (l1 ++ l2 ++ [(t, length (et_res x), f)]), []. split; [by rewrite El, E, app_nil_r, app_assoc|]. split; [|by intros ? ?%elem_of_nil].
    intros y Hy. rewrite app_assoc, <- E in Hy. apply elem_of_app in Hy as [Hy| ->%elem_of_list_singleton].
    + intros (Et & v & Hv & Em). destruct y as [[a i] g]. cbn in *. subst a. apply (log_begun ps) in Hy as ((z & Hz & Hb) & _); [|done].
      assert (z = x) as -> by congruence. assert (i ≤ length (et_res x)) as Hi by (destruct Hb as [?|[-> _]]; lia).
      pose proof (write_sorted _ _ _ _ _ _ Hv Hw Hi). lia.
    + intros (_ & v & Hv & Em). cbn in Hv. pose proof (write_inj _ _ _ _ _ Hv Hw). subst v. lia.
  - exists l1, (l2 ++ [(u, length (et_res x), f)]). split; [by rewrite El, E, app_assoc|]. split; [done|].
    intros y [Hy| ->%elem_of_list_singleton]%elem_of_app; [by apply H2|]. intros (Et & v & Hv & Em). cbn in *. subst u. apply Hn. split; [done|].
    pose proof (write_inj _ _ _ _ _ Hv Hw). by subst v.
Qed.

(** ** Results *)
Lemma at_moment_app ps l1 l2 t i pc P : at_moment ps l1 t i pc P → at_moment ps (l1 ++ l2) t i pc P.
Proof. intros (a & b & x & w & -> & H). exists a, (b ++ l2), x, w. split; [by rewrite <- app_assoc|done]. Qed.
(** Why a write ends with this result. *)
Definition because (ps : list (list emission)) (ls : list elabel) (t i : nat) (w : ewrite) (r : eres) : Prop :=
  match r with
  | EWritten => em_vol (ew_em w) = true → at_moment ps ls t i ECheck (λ y, ec_writable y = true)
  | EDiscarded => em_vol (ew_em w) = true ∧ at_moment ps ls t i ECheck (λ y, ec_writable y = false)
  | EIgnored => em_via (ew_em w) = true ∧ at_moment ps ls t i EEnter (λ y, ec_open y = false)
  end.
Lemma because_app ps l1 l2 t i w r : because ps l1 t i w r → because ps (l1 ++ l2) t i w r.
Proof. destruct r; cbn; intros H; [split; [apply H|apply at_moment_app, H]..|]. intros Hv. by apply at_moment_app, H. Qed.
Definition reasons (ps : list (list emission)) (ls : list elabel) (t : nat) (x : ethread) : Prop :=
  (∀ i w r, et_writes x !! i = Some w → et_res x !! i = Some r → because ps ls t i w r) ∧
  (∀ w, et_writes x !! length (et_res x) = Some w → match et_pc x with
    | EFrames _ => because ps ls t (length (et_res x)) w EWritten | EUnlock r => because ps ls t (length (et_res x)) w r | _ => True end).
Lemma reasons_app ps l1 l2 t x : reasons ps l1 t x → reasons ps (l1 ++ l2) t x.
Proof. intros [H1 H2]. split; [intros; by apply because_app, H1|]. intros w Hw. specialize (H2 w Hw). destruct (et_pc x); try done; by apply because_app. Qed.
Lemma run_reasons ps ls t x : es_thr (e_run ps ls) !! t = Some x → reasons ps ls t x.
Proof.
  revert t x. induction ls as [|l ls IH] using rev_ind; intros t x.
  { cbn. intros (es & _ & ->)%list_lookup_fmap_Some. split; cbn; done. }
  rewrite e_run_snoc. pose proof (einv_run ps ls) as H. pose proof (e_step_inv (e_run ps ls) l) as Hs. revert Hs. generalize (e_step (e_run ps ls) l). intros s' Hs Hx'.
  assert (∀ u z z', es_thr (e_run ps ls) !! u = Some z → <[u:=z']> (es_thr (e_run ps ls)) !! t = Some x → (reasons ps (ls ++ [l]) u z → reasons ps (ls ++ [l]) u z') → reasons ps (ls ++ [l]) t x) as Hu.
  { intros u z z' Hz Hins Hr. destruct (upd_thr _ _ _ _ _ _ Hz Hins) as [[-> ->]|[_ Hz']]; [by apply Hr, reasons_app, IH|by apply reasons_app, IH]. }
  assert (∀ u z w pc (P : econn → Prop), l = inl u → es_thr (e_run ps ls) !! u = Some z → et_writes z !! length (et_res z) = Some w → et_pc z = pc →
    P (es_conn (e_run ps ls) (ew_conn w)) → at_moment ps (ls ++ [l]) u (length (et_res z)) pc P) as Hm.
  { intros u z w pc P -> Hz Hw Hp HP. exists ls, [], z, w. split_and!; try done. by apply (thr_write ps (e_run ps ls) u z). }
  destruct Hs as [l|c o w|u z w Hz Hw Hp Hv Ho|u z w Hz Hw Hp|u z w Hz Hw Hp Hl|u z w Hz Hw Hp Hv Ho|u z w Hz Hw Hp Hv|u z w n f Hz Hw Hp Hf|u z w n Hz Hw Hp Hf|u z w r Hz Hw Hp]; cbn in Hx'.
  - by apply reasons_app, IH.
  - by apply reasons_app, IH.
  - eapply Hu; [exact Hz|exact Hx'|]. intros [H1 _]. split; cbn; [|done]. intros i v r Hv' Hr. apply lookup_app_Some in Hr as [Hr|[Hi Hr]]; [by apply H1|].
    destruct (i - length (et_res z)) eqn:Ei; [|by destruct n]. injection Hr as <-. assert (i = length (et_res z)) as -> by lia. assert (v = w) as -> by congruence.
    split; [done|]. by eapply Hm.
  - eapply Hu; [exact Hz|exact Hx'|]. intros [H1 _]. split; cbn; [done|done].
  - eapply Hu; [exact Hz|exact Hx'|]. intros [H1 _]. split; cbn; [done|done].
  - eapply Hu; [exact Hz|exact Hx'|]. intros [H1 _]. split; cbn; [done|]. intros v Hv'. assert (v = w) as -> by congruence. split; [done|]. by eapply Hm.
  - eapply Hu; [exact Hz|exact Hx'|]. intros [H1 _]. split; cbn; [done|]. intros v Hv'. assert (v = w) as -> by congruence. intros Hvol. eapply Hm; try done. by apply Hv.
  - eapply Hu; [exact Hz|exact Hx'|]. intros [H1 H2]. split; cbn; [done|]. intros v Hv'. specialize (H2 v Hv'). by rewrite Hp in H2.
  - eapply Hu; [exact Hz|exact Hx'|]. intros [H1 H2]. split; cbn; [done|]. intros v Hv'. specialize (H2 v Hv'). by rewrite Hp in H2.
  - eapply Hu; [exact Hz|exact Hx'|]. intros [H1 H2]. split; cbn; [|done]. intros i v q Hv' Hr. apply lookup_app_Some in Hr as [Hr|[Hi Hr]]; [by apply H1|].
    destruct (i - length (et_res z)) eqn:Ei; [|by destruct n]. injection Hr as <-. assert (i = length (et_res z)) as -> by lia. specialize (H2 v Hv'). by rewrite Hp in H2.
Qed.
Lemma in_log ps ids t i f : (t, i, f) ∈ concat (block ps <$> ids) → (t, i) ∈ ids.
Proof.
  intros (l & Hl & Hin)%elem_of_list_In%in_concat. apply elem_of_list_In in Hl, Hin. apply elem_of_list_fmap in Hl as (b & -> & Hb). apply in_block in Hin. cbn in Hin. by subst b.
Qed.
Lemma written_once ps s t i w : einv ps s → is_write ps t i w → returned s t i EWritten →
  ∃ l1 l2, ec_log (es_conn s (ew_conn w)) = l1 ++ block ps (t, i) ++ l2 ∧ ∀ x, x ∈ l1 ++ l2 → x.1 ≠ (t, i).
Proof.
  intros H Hw (x & Hx & Hr). destruct (ei_log _ _ H (ew_conn w)) as (ids & H1 & H2 & H3 & H4).
  assert ((t, i) ∈ ids) as Hin. { apply H2. exists x. split; [done|]. exists w. split; [|split; [done|by left]]. by apply (thr_write ps s t x). }
  apply elem_of_list_split in Hin as (a & b & ->). exists (concat (block ps <$> a)), (concat (block ps <$> b) ++ part_of s (ew_conn w)).
  split; [by rewrite H4, fmap_app, fmap_cons, concat_app; cbn; rewrite <- !app_assoc|].
  apply NoDup_app in H1 as (_ & Ha & [Hb _]%NoDup_cons). intros [[u j] f] Hin [= -> ->]. rewrite !elem_of_app in Hin. destruct Hin as [Hin|[Hin|Hin]].
  - apply in_log in Hin. apply (Ha _ Hin). by left.
  - by apply in_log in Hin.
  - unfold part_of in Hin. destruct (ec_lock (es_conn s (ew_conn w))) as [u|] eqn:El; [|by apply elem_of_nil in Hin]. apply (ei_lock _ _ H) in El as (y & v & Hy & Hv & Hc & Hi).
    rewrite Hy in Hin. destruct (et_pc y) as [| | |n|r] eqn:Ep; try (by apply elem_of_nil in Hin). apply elem_of_take in Hin as (p & Ha' & _). apply elem_of_list_lookup_2 in Ha'.
    unfold blk in Ha'. rewrite Hv in Ha'. apply elem_of_list_fmap in Ha' as (g & [= -> -> ->] & _). assert (y = x) as -> by congruence. apply lookup_lt_Some in Hr. lia.
Qed.
Lemma not_written ps s t i w r : einv ps s → is_write ps t i w → returned s t i r → r ≠ EWritten → ∀ c x, x ∈ ec_log (es_conn s c) → x.1 ≠ (t, i).
Proof.
  intros H Hw (x & Hx & Hr) Hn c [[u j] f] Hin [= -> ->]. destruct (ei_log _ _ H c) as (ids & H1 & H2 & H3 & H4). rewrite H4 in Hin. apply elem_of_app in Hin as [Hin|Hin].
  - apply in_log, H2 in Hin as (y & Hy & v & Hv & _ & [Hr'|[-> _]]); assert (y = x) as -> by congruence; [congruence|]. apply lookup_lt_Some in Hr. lia.
  - unfold part_of in Hin. destruct (ec_lock (es_conn s c)) as [u|] eqn:El; [|by apply elem_of_nil in Hin]. apply (ei_lock _ _ H) in El as (y & v & Hy & Hv & Hc & Hi).
    rewrite Hy in Hin. destruct (et_pc y) as [| | |n|q] eqn:Ep; try (by apply elem_of_nil in Hin). apply elem_of_take in Hin as (p & Ha' & _). apply elem_of_list_lookup_2 in Ha'.
    unfold blk in Ha'. rewrite Hv in Ha'. apply elem_of_list_fmap in Ha' as (g & [= -> -> ->] & _). assert (y = x) as -> by congruence. apply lookup_lt_Some in Hr. lia.
Qed.
Lemma run_result ps ls t i r : let s := e_run ps ls in returned s t i r → ∃ w, is_write ps t i w ∧ because ps ls t i w r ∧
  match r with
  | EWritten => ∃ l1 l2, ec_log (es_conn s (ew_conn w)) = l1 ++ block ps (t, i) ++ l2 ∧ ∀ x, x ∈ l1 ++ l2 → x.1 ≠ (t, i)
  | _ => ∀ c x, x ∈ ec_log (es_conn s c) → x.1 ≠ (t, i)
  end.
Proof.
  cbv zeta. intros Hret. pose proof (einv_run ps ls) as H. pose proof Hret as (x & Hx & Hr).
  assert (∃ w, et_writes x !! i = Some w) as (w & Hw).
  { apply lookup_lt_is_Some. apply lookup_lt_Some in Hr. pose proof (proj1 (ei_pc _ _ H _ _ Hx)). lia. }
  pose proof (proj1 (proj1 (thr_write ps _ t x _ _ H Hx) Hw)) as Hw'. exists w. split; [done|]. split; [by apply (run_reasons _ _ _ _ Hx)|].
  destruct r; [by eapply not_written..|by apply written_once].
Qed.
(** ** A broadcast reaches its connections *)
Lemma run_delivered ps ls t es k e c : let s := e_run ps ls in ps !! t = Some es → es !! k = Some e → c ∈ em_conns e → em_vol e = false →
  (em_via e = true → ∀ o w, inr (c, o, w) ∈ ls → o = true) → over ps s t k →
  ∃ i l1 l2, ec_log (es_conn s c) = l1 ++ ((λ f, (t, i, f)) <$> em_frames e) ++ l2 ∧ ∀ x, x ∈ l1 ++ l2 → x.1 ≠ (t, i).
Proof.
  cbv zeta. intros Hes He Hc Hv Hvia Ho. destruct (write_has ps t es k e c Hes He Hc) as (i & Hi). destruct (Ho i _ Hi eq_refl) as (r & Hr).
  pose proof (run_result ps ls t i r Hr) as (w & Hw & Hb & Hlog). pose proof (write_inj _ _ _ _ _ Hw Hi). subst w. cbn in *. exists i. destruct r.
  - exfalso. destruct Hb as [Hvia' (l1 & l2 & x & w & -> & Hx & El & Ep & Hw' & Hop)]. pose proof (write_inj _ _ _ _ _ Hw' Hi). subst w. cbn in Hop.
    assert (∀ l, l `prefix_of` l1 → ec_open (es_conn (e_run ps l) c) = true) as Hopen.
    { intros l. induction l as [|b l IH] using rev_ind; [done|]. intros Hpre. rewrite e_run_snoc.
      assert (ec_open (es_conn (e_run ps l) c) = true) as IH' by (apply IH; etrans; [|exact Hpre]; by apply prefix_app_r).
      pose proof (e_step_inv (e_run ps l) b) as Hs. revert Hs. generalize (e_step (e_run ps l) b). intros s' Hs.
      destruct Hs; cbn; try done; try (destruct (decide _) as [->|]; done). destruct (decide (c = c0)) as [->|]; [|done]. cbn. apply (Hvia Hvia' o w).
      destruct Hpre as (l' & ->). rewrite !elem_of_app. left. left. right. by left. }
    rewrite Hopen in Hop by done. done.
  - exfalso. destruct Hb as [Hb _]. cbn in Hb. congruence.
  - destruct Hlog as (l1 & l2 & E & Hx). exists l1, l2. split; [|done]. rewrite E. by rewrite (block_write ps t i _ Hi).
Qed.

(** ** Progress *)
Lemma run_progress ps ls t : let s := e_run ps ls in t < length (es_thr s) → ¬ finished s t → ∃ u, can_step s u.
Proof.
  cbv zeta. intros Ht Hd. pose proof (einv_run ps ls) as H. set (s := e_run ps ls) in *. apply lookup_lt_is_Some in Ht as (x & Hx).
  destruct (et_writes x !! length (et_res x)) as [w|] eqn:Ew.
  2: { exfalso. apply Hd. exists x. split; [done|]. apply lookup_ge_None in Ew. pose proof (proj1 (ei_pc _ _ H _ _ Hx)). lia. }
  assert (∀ u y, es_thr s !! u = Some y → length (et_res y) < length (et_writes y) → (∀ v, et_writes y !! length (et_res y) = Some v → et_pc y = ELock → ec_lock (es_conn s (ew_conn v)) = None) → can_step s u) as Hcan.
  { intros u y Hy Hlt Hl. split; [by eapply lookup_lt_Some|]. split.
    - intros (z & Hz & E). assert (z = y) as -> by congruence. lia.
    - intros (z & v & Hz & Hv & Hp & Hn). assert (z = y) as -> by congruence. by apply Hn, Hl. }
  assert (length (et_res x) < length (et_writes x)) as Hlt by (by eapply lookup_lt_Some).
  destruct (et_pc x) eqn:Ep; try (exists t; apply (Hcan t x); [done|done|congruence]).
  destruct (ec_lock (es_conn s (ew_conn w))) as [u|] eqn:El.
  - exists u. apply (ei_lock _ _ H) in El as (y & v & Hy & Hv & _ & Hin). apply (Hcan u y); [done|by eapply lookup_lt_Some|]. intros ? _ E. by rewrite E in Hin.
  - exists t. apply (Hcan t x); [done|done|]. intros v Hv _. assert (v = w) as -> by congruence. done.
Qed.
(** What is left to do. *)
Definition pc_left (w : ewrite) (pc : epc) : nat :=
  let n := length (em_frames (ew_em w)) in match pc with EEnter => 5 + n | ELock => 4 + n | ECheck => 3 + n | EFrames k => 2 + n - k | EUnlock _ => 1 end.
Definition thr_left (x : ethread) : nat :=
  match drop (length (et_res x)) (et_writes x) with [] => 0 | w :: ws => pc_left w (et_pc x) + sum_list_with (λ w, 5 + length (em_frames (ew_em w))) ws end.
Definition left_of (s : est) : nat := sum_list_with thr_left (es_thr s).
Lemma sum_insert {A} (f : A → nat) l i x y : l !! i = Some x → sum_list_with f (<[i:=y]> l) + f x = sum_list_with f l + f y.
Proof.
  intros H. rewrite <- (take_drop_middle l i x H) at 2. rewrite insert_take_drop by (by eapply lookup_lt_Some).
  assert (∀ l1 l2, sum_list_with f (l1 ++ l2) = sum_list_with f l1 + sum_list_with f l2) as Ha by (intros; induction l1; cbn in *; lia). rewrite !Ha. cbn. lia.
Qed.
Lemma start_left ps : left_of (e_start ps) = work ps.
Proof.
  unfold left_of, work. cbn. induction ps as [|es ps IH]; [done|]. cbn. rewrite IH. f_equal. unfold thr_left. cbn. rewrite drop_0. by destruct (writes es).
Qed.
Lemma step_left ps s t : einv ps s → can_step s t → left_of (e_step s (inl t)) < left_of s.
Proof.
  intros H (Ht & Hd & Hwt). apply lookup_lt_is_Some in Ht as (x & Hx).
  destruct (et_writes x !! length (et_res x)) as [w|] eqn:Ew.
  2: { exfalso. apply Hd. exists x. split; [done|]. apply lookup_ge_None in Ew. pose proof (proj1 (ei_pc _ _ H _ _ Hx)). lia. }
  assert (∀ y s', es_thr s' = <[t:=y]> (es_thr s) → thr_left y < thr_left x → left_of s' < left_of s) as Hu.
  { intros y s' Et Hlt. unfold left_of. rewrite Et. pose proof (sum_insert thr_left _ _ _ y Hx). lia. }
  pose proof (drop_S _ _ _ Ew) as Edrop.
  assert (∀ pc, pc_left w pc < pc_left w (et_pc x) → thr_left (EThread (et_writes x) (et_res x) pc) < thr_left x) as Hgo.
  { intros pc Hlt. unfold thr_left. cbn [et_writes et_res et_pc]. rewrite Edrop. lia. }
  assert (∀ r, thr_left (EThread (et_writes x) (et_res x ++ [r]) EEnter) < thr_left x) as Hnx.
  { intros r. unfold thr_left. cbn [et_writes et_res et_pc]. rewrite app_length, Nat.add_1_r, Edrop. cbn.
    assert (0 < pc_left w (et_pc x)) as Hpos. { unfold pc_left. destruct (et_pc x) as [| | |n|] eqn:Ep; try lia. pose proof (ei_frames _ _ H _ _ _ _ Hx Ew Ep). lia. }
    destruct (drop (S (length (et_res x))) (et_writes x)) as [|v vs]; cbn; lia. }
  unfold e_step. rewrite Hx, Ew. unfold e_thread. destruct (et_pc x) as [| | |n|r] eqn:Ep.
  - destruct (em_via (ew_em w) && negb _); [eapply Hu; [reflexivity|apply Hnx]|eapply Hu; [reflexivity|apply Hgo; cbn; lia]].
  - destruct (ec_lock (es_conn s (ew_conn w))) eqn:El; [|eapply Hu; [reflexivity|apply Hgo; cbn; lia]].
    exfalso. apply Hwt. exists x, w. by rewrite El.
  - destruct (em_vol (ew_em w) && negb _); (eapply Hu; [reflexivity|apply Hgo; cbn; lia]).
  - pose proof (ei_frames _ _ H _ _ _ _ Hx Ew Ep). destruct (em_frames (ew_em w) !! n) eqn:Ef; (eapply Hu; [reflexivity|apply Hgo; cbn]); [apply lookup_lt_Some in Ef; lia|lia].
  - eapply Hu; [reflexivity|apply Hnx].
Qed.
Lemma env_left s c o w : left_of (e_step s (inr (c, o, w))) = left_of s.
Proof. done. Qed.
Lemma run_bounded ps ls : busy ps ls → steps ls + left_of (e_run ps ls) ≤ work ps.
Proof.
  intros H. induction ls as [|l ls IH] using rev_ind; [change (e_run ps []) with (e_start ps); rewrite start_left; done|].
  assert (busy ps ls) as Hb. { intros l1 t l2 ->. apply (H l1 t (l2 ++ [l])). by rewrite <- app_assoc. }
  specialize (IH Hb). rewrite e_run_snoc. unfold steps in *. rewrite omap_app, app_length. destruct l as [t|[[c o] w]]; cbn [omap list_omap length].
  - pose proof (step_left ps (e_run ps ls) t (einv_run ps ls) (H ls t [] eq_refl)) as Hlt. lia.
  - rewrite env_left. lia.
Qed.
Lemma run_completes ps ls : ∃ ls', (∀ l, l ∈ ls' → ∃ t, l = inl t) ∧ all_finished (e_run ps (ls ++ ls')).
Proof.
  remember (left_of (e_run ps ls)) as n eqn:En. revert ls En. induction (lt_wf n) as [n _ IH]. intros ls ->.
  assert (∀ s, all_finished s ∨ ∃ t, t < length (es_thr s) ∧ ¬ finished s t) as Hdec.
  { intros s. destruct (decide (Forall (λ x, length (et_res x) = length (et_writes x)) (es_thr s))) as [Hf|Hf].
    - left. intros t (x & Hx)%lookup_lt_is_Some. exists x. split; [done|]. by eapply (Forall_lookup_1 _ _ _ _ Hf).
    - right. apply not_Forall_Exists in Hf; [|apply _]. apply Exists_exists in Hf as (x & (t & Hx)%elem_of_list_lookup & Hn). exists t. split; [by eapply lookup_lt_Some|].
      intros (y & Hy & E). assert (y = x) as -> by congruence. done. }
  destruct (Hdec (e_run ps ls)) as [Hd|(t & Ht & Hn)]; [exists []; split; [by intros ? ?%elem_of_nil|by rewrite app_nil_r]|].
  destruct (run_progress ps ls t Ht Hn) as (u & Hu). pose proof (step_left ps _ u (einv_run ps ls) Hu) as Hlt.
  destruct (IH _ Hlt (ls ++ [inl u])) as (ls' & Hall & Hdone); [by rewrite e_run_snoc|]. exists (inl u :: ls'). split.
  - intros l [->|Hl]%elem_of_cons; [by eexists|by apply Hall].
  - by rewrite <- app_assoc in Hdone.
Qed.
Lemma run_steps ps ls : busy ps ls → steps ls ≤ work ps.
Proof. intros H%run_bounded. lia. Qed.
Lemma run_results ps ls t i r : let s := e_run ps ls in returned s t i r → ∃ w, is_write ps t i w ∧
  match r with
  | EWritten => (em_vol (ew_em w) = true → at_moment ps ls t i ECheck (λ y, ec_writable y = true)) ∧
      ∃ l1 l2, ec_log (es_conn s (ew_conn w)) = l1 ++ block ps (t, i) ++ l2 ∧ ∀ x, x ∈ l1 ++ l2 → x.1 ≠ (t, i)
  | EDiscarded => (em_vol (ew_em w) = true ∧ at_moment ps ls t i ECheck (λ y, ec_writable y = false)) ∧ ∀ c x, x ∈ ec_log (es_conn s c) → x.1 ≠ (t, i)
  | EIgnored => (em_via (ew_em w) = true ∧ at_moment ps ls t i EEnter (λ y, ec_open y = false)) ∧ ∀ c x, x ∈ ec_log (es_conn s c) → x.1 ≠ (t, i)
  end.
Proof. cbv zeta. intros H. destruct (run_result ps ls t i r H) as (w & Hw & Hb & Hl). exists w. split; [done|]. by destruct r. Qed.
