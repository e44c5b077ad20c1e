(** Proofs for the interleaving model of a socket's lifecycle. *)
From Verif Require Import Base LifeConc LifeConcSpec.

(** The calls of client._disconnect. *)
Local Notation alls t := (t = LcDisconnectAll ∨ t = LcClient).
Definition within (ts : list lcall) (s : lstate) : Prop := ∀ r, r ∈ ls_rooms s → joinable ts r.
Definition kt (t : lcall) (k : lcont) : Prop :=
  match k with KEnd => t = LcPacket ∨ t = LcDisconnect ∨ t = LcShutdown | KClear => ∃ r, t = LcTransport r | KAll => alls t end.

Definition lok (ts : list lcall) (t : lcall) (p : lpc) (s : lstate) : Prop :=
  ¬ admits t ∧
  match p with
  | QStart | QDone => True
  | QRange1 | QCheck1 => alls t
  | QWrite k => kt t k ∧ k ≠ KClear
  | QClear1 | QReady | QHang => alls t ∧ ls_csock s = false
  | QRange => (∃ r, t = LcTransport r) ∨ alls t ∧ ls_csock s = false
  | QClear => ((∃ r, t = LcTransport r) ∨ alls t) ∧ ls_csock s = false
  | QOpen _ k | QSay _ k | QLeave _ k => kt t k
  | QUnlist _ k => kt t k ∧ within ts s
  | QNoJoin _ k => kt t k ∧ within ts s ∧ ls_listed s = false
  | QHas _ k | QDrop _ k => kt t k ∧ within ts s ∧ ls_listed s = false ∧ ls_can s = false
  | QDropNsp _ k | QOff _ k => kt t k ∧ within ts s ∧ ls_listed s = false ∧ ls_can s = false ∧ ls_csock s = false
  | QBye _ k => kt t k ∧ ls_connected s = false
  | QAdd => ∃ rs, t = LcJoin rs
  | _ => False
  end.
(** Between the check of [connected] and its being cleared. *)
Definition mid (p : lpc) : bool :=
  match p with QSay _ _ | QLeave _ _ | QUnlist _ _ | QNoJoin _ _ | QHas _ _ | QDrop _ _ | QDropNsp _ _ | QOff _ _ => true | _ => false end.
(** The closing call has looked at the socket. *)
Definition late (t : lcall) (p : lpc) : Prop :=
  closes t ∧ match p with QClear1 | QReady | QHang | QClear | QDone => True | QRange => alls t | _ => False end.
Definition at_pc (c : lconf) (P : lpc → Prop) : Prop := ∃ i t p, lf_calls c !! i = Some (t, p) ∧ P p.
Definition dying (c : lconf) : Prop := ls_connected (lf_state c) = false ∨ at_pc c (λ p, mid p = true).

Definition lives (i : nat) (l : list (nat * lev)) : list lev :=
  omap (λ e : nat * lev, if decide (e.1 = i) then if is_life e.2 then Some e.2 else None else None) l.
Definition lgood0 (t : lcall) (p : lpc) (l : list lev) : Prop :=
  match p with
  | QStart | QWrite _ | QRange1 | QCheck1 | QOpen _ _ | QSay _ _ | QAdd => l = []
  | QLeave r _ | QUnlist r _ | QNoJoin r _ | QHas r _ | QDrop r _ | QDropNsp r _ | QOff r _ | QBye r _ => l = [VDisconnecting r]
  | QRange => l = [] ∨ alls t ∧ ∃ r, l = [VDisconnecting r; VDisconnect r]
  | _ => l = [] ∨ ∃ r, l = [VDisconnecting r; VDisconnect r]
  end.
Definition lgood (t : lcall) (p : lpc) (l : list lev) : Prop := (¬ closes t → l = []) ∧ lgood0 t p l.

Record LI (ts : list lcall) (c : lconf) : Prop := {
  li_ts : (lf_calls c).*1 = ts;
  li_ok : ∀ i t p, lf_calls c !! i = Some (t, p) → lok ts t p (lf_state c);
  li_off : ls_connected (lf_state c) = false →
    within ts (lf_state c) ∧ ls_listed (lf_state c) = false ∧ ls_can (lf_state c) = false ∧ ls_csock (lf_state c) = false;
  li_nsp : ls_csock (lf_state c) = false → ls_cnsp (lf_state c) = false ∨ at_pc c (λ p, match p with QDropNsp _ _ => True | _ => False end);
  li_dying : ls_csock (lf_state c) = false ∨ ls_listed (lf_state c) = false → dying c;
  li_late : ∀ i t p, lf_calls c !! i = Some (t, p) → late t p → dying c;
  li_bye : ls_connected (lf_state c) = false → at_pc c (λ p, match p with QBye _ _ => True | _ => False end) ∨ ∃ i r, (i, VDisconnect r) ∈ lf_log c;
  li_log : ∀ i t p, lf_calls c !! i = Some (t, p) → lgood t p (lives i (lf_log c)) }.

Lemma lives_app i l l' : lives i (l ++ l') = lives i l ++ lives i l'.
Proof. apply omap_app. Qed.

Definition mono (ts : list lcall) (s s' : lstate) : Prop :=
  (ls_connected s = false → ls_connected s' = false) ∧ (ls_can s = false → ls_can s' = false) ∧
  (ls_listed s = false → ls_listed s' = false) ∧ (ls_csock s = false → ls_csock s' = false) ∧ (within ts s → within ts s').

Lemma step1_mono ts t p s : t ∈ ts → lok ts t p s → mono ts s (lc_step1 t p s).1.2.
Proof.
  intros Ht [Ha H]. unfold mono, within.
  destruct p; try done; cbn [lc_step1 fst snd]; try (by repeat split; auto).
  - destruct t; cbn; repeat split; auto. intros Hw x Hx. apply Hw. set_solver.
  - destruct H as [rs ->]. cbn. repeat split; auto. intros Hw x [Hx|Hx]%elem_of_union; [by exists rs|by apply Hw].
Qed.
Lemma lok_mono ts t p s s' : mono ts s s' → lok ts t p s → lok ts t p s'.
Proof. intros (M1&M2&M3&M4&M5) [Ha H]. split; [done|]. destruct p; naive_solver. Qed.

(** The call that steps. *)
Lemma step1_ok ts t p s : lok ts t p s → (ls_connected s = false → ls_csock s = false) →
  lok ts t (lc_step1 t p s).1.1 (lc_step1 t p s).1.2.
Proof.
  intros [Ha H] Hc. split; [done|].
  destruct p; try done; cbn [lc_step1 fst snd].
  all: try match goal with k : lcont |- _ => destruct k end.
  all: repeat case_match; simplify_eq/=; eauto 10; try naive_solver.
Qed.

Lemma step_at c i t p (P : lpc → Prop) : lf_calls c !! i = Some (t, p) →
  (P p → P (lc_step1 t p (lf_state c)).1.1) → at_pc c P → at_pc (lc_step c i) P.
Proof.
  intros Hi HP (j & u & q & Hj & Hq). unfold lc_step, at_pc. rewrite Hi. cbn.
  destruct (decide (i = j)) as [->|Hne].
  - rewrite Hi in Hj. injection Hj as <- <-. exists j, t, (lc_step1 t p (lf_state c)).1.1. split; [|by apply HP].
    rewrite list_lookup_insert; [done|]. by eapply lookup_lt_Some.
  - exists j, u, q. split; [|done]. by rewrite list_lookup_insert_ne.
Qed.
Lemma step_at_self c i t p (P : lpc → Prop) : lf_calls c !! i = Some (t, p) → P (lc_step1 t p (lf_state c)).1.1 → at_pc (lc_step c i) P.
Proof.
  intros Hi HP. unfold lc_step, at_pc. rewrite Hi. cbn. exists i, t, (lc_step1 t p (lf_state c)).1.1. split; [|done].
  rewrite list_lookup_insert; [done|]. by eapply lookup_lt_Some.
Qed.
Lemma mid_step t p s : mid p = true → mid (lc_step1 t p s).1.1 = true ∨ ls_connected (lc_step1 t p s).1.2 = false.
Proof. destruct p; try done; intros _; cbn; auto. destruct (ls_csock s); by left. Qed.

Lemma step_state c i t p : lf_calls c !! i = Some (t, p) → lf_state (lc_step c i) = (lc_step1 t p (lf_state c)).1.2.
Proof. intros Hi. unfold lc_step. by rewrite Hi. Qed.
Lemma step_dying ts c i t p : lf_calls c !! i = Some (t, p) → t ∈ ts → lok ts t p (lf_state c) → dying c → dying (lc_step c i).
Proof.
  intros Hi Ht Hok [H|H]; unfold dying; rewrite (step_state c i t p Hi).
  - left. by apply (step1_mono ts t p).
  - destruct (mid p) eqn:Em.
    + destruct (mid_step t p (lf_state c) Em) as [H'|H']; [right|by left]. by apply (step_at_self c i t p).
    + right. apply (step_at c i t p); [done|by rewrite Em|done].
Qed.

(** The lifecycle events of the calls. *)
Lemma lives_one i e : lives i [(i, e)] = if is_life e then [e] else [].
Proof. unfold lives. cbn. rewrite decide_True by done. by destruct (is_life e). Qed.
Lemma lives_other i j e : i ≠ j → lives j [(i, e)] = [].
Proof. intros H. unfold lives. cbn. by rewrite decide_False by done. Qed.
Lemma kt_closes t k : kt t k → closes t.
Proof. destruct k; cbn; destruct t; naive_solver. Qed.
Lemma lgood_step ts t p s l i : lok ts t p s → lgood t p l →
  lgood t (lc_step1 t p s).1.1 (l ++ lives i (match (lc_step1 t p s).2 with Some e => [(i, e)] | None => [] end)).
Proof.
  intros [Ha Hok] [Hn Hg]. split.
  { intros Hc. rewrite (Hn Hc). destruct p; cbn in Hok; try done; try (by exfalso; destruct t; naive_solver); try (by exfalso; apply Hc, (kt_closes t k)); try (by exfalso; apply Hc, (kt_closes t k), Hok).
    cbn. destruct t; repeat case_match; simplify_eq; try done; cbn in *; tauto.
    }
  destruct p; try done; cbn [lc_step1 fst snd].
  all: repeat case_match; simplify_eq; rewrite ?lives_one; cbn [is_life lives omap list_omap]; rewrite ?app_nil_r; try done; try (by left).
  all: try (cbn in Hg; subst l).
  all: try match goal with k : lcont |- _ => destruct k end; cbn; eauto.
  all: cbn in Hok; naive_solver.
Qed.

Lemma LI_step ts c i : LI ts c → LI ts (lc_step c i).
Proof.
  intros HI. destruct (lf_calls c !! i) as [[t p]|] eqn:Hi; [|unfold lc_step; by rewrite Hi].
  assert (Ht : t ∈ ts).
  { rewrite <- (li_ts ts c HI). apply elem_of_list_fmap. exists (t, p). split; [done|]. by eapply elem_of_list_lookup_2. }
  pose proof (li_ok ts c HI i t p Hi) as Hok.
  pose proof (step1_mono ts t p (lf_state c) Ht Hok) as Hm.
  pose proof (step1_ok ts t p (lf_state c) Hok (λ H, proj2 (proj2 (proj2 (li_off ts c HI H))))) as Hok'.
  pose proof (step_state c i t p Hi) as Hst.
  pose proof (step_dying ts c i t p Hi Ht Hok) as Hdy.
  assert (Hlk : ∀ j u q, lf_calls (lc_step c i) !! j = Some (u, q) →
    (i = j ∧ u = t ∧ q = (lc_step1 t p (lf_state c)).1.1) ∨ i ≠ j ∧ lf_calls c !! j = Some (u, q)).
  { intros j u q. unfold lc_step. rewrite Hi. cbn. intros [(-> & H & _)|[Hne H]]%list_lookup_insert_Some; [left|by right]. by injection H as -> ->. }
  split.
  - unfold lc_step. rewrite Hi. cbn. rewrite list_fmap_insert. cbn. rewrite list_insert_id; [apply (li_ts ts c HI)|].
    rewrite list_lookup_fmap, Hi. done.
  - intros j u q [(<- & -> & ->)|[Hne Hj]]%Hlk; rewrite Hst; [done|]. apply (lok_mono ts u q (lf_state c)); [done|].
    by apply (li_ok ts c HI j).
  - rewrite Hst. intros Hc. destruct (ls_connected (lf_state c)) eqn:Ec.
    + destruct p; cbn in Hc; try congruence; repeat case_match; cbn in Hc; try congruence; try (by destruct Hok).
      destruct Hok as (_ & _ & H1 & H2 & H3 & H4). done.
    + destruct (li_off ts c HI Ec) as (H1 & H2 & H3 & H4). destruct Hm as (M1 & M2 & M3 & M4 & M5). auto.
  - rewrite Hst. intros Hc. destruct (ls_csock (lf_state c)) eqn:Ec.
    + destruct p; cbn in Hc; try congruence; repeat case_match; cbn in Hc; try congruence; destruct Hok as [_ Hok]; try done; try (naive_solver congruence).
      right. by apply (step_at_self c i t (QDrop r k)).
    + destruct (li_nsp ts c HI Ec) as [Hn|Hn].
      * left. destruct Hok as [_ Hok]. destruct p; cbn; repeat case_match; cbn; try done.
      * destruct p eqn:Ep; try (right; apply (step_at c i t p); subst p; [done|by cbn|done]). by left.
  - rewrite Hst. intros Hc.
    destruct (decide (ls_csock (lf_state c) = false ∨ ls_listed (lf_state c) = false)) as [Hd|Hd]; [apply Hdy; by apply (li_dying ts c HI)|].
    right. apply (step_at_self c i t p _ Hi). destruct Hok as [_ Hok].
    destruct p; cbn in Hc |- *; repeat case_match; cbn in *; try done; try (exfalso; naive_solver congruence).
  - intros j u q Hj Hl. destruct (Hlk j u q Hj) as [(<- & -> & ->)|[Hne Hj']]; [|apply Hdy; by apply (li_late ts c HI j u q)].
    destruct Hl as [Hcl Hl].
    destruct (ls_connected (lf_state c)) eqn:Ec; [|apply Hdy; by left].
    destruct Hok as [_ Hok].
    destruct p; cbn in Hok; try done; try (apply Hdy; by apply (li_late ts c HI i t _ Hi)).
    all: cbn in Hl; try (rewrite Ec in Hl; done).
    + destruct t; cbn in Hl, Hcl; try done; repeat case_match; simplify_eq; try done; try (by destruct Hl).
      apply Hdy, (li_dying ts c HI). by right.
    + destruct (ls_csock (lf_state c)) eqn:E; [done|]. apply Hdy, (li_dying ts c HI). by left.
    + destruct (ls_csock (lf_state c)) eqn:E; [done|]. apply Hdy, (li_dying ts c HI). by left.
    + by destruct (ls_csock (lf_state c)).
    + destruct Hok as [_ H]. by rewrite Ec in H.
    + by destruct Hok as [rs ->].
  - rewrite Hst. intros Hc. destruct (ls_connected (lf_state c)) eqn:Ec.
    + left. apply (step_at_self c i t p _ Hi). destruct Hok as [_ Hok].
      destruct p; cbn in Hc |- *; repeat case_match; cbn in *; try done; try (exfalso; naive_solver congruence).
    + assert (Hlog : ∃ l, lf_log (lc_step c i) = lf_log c ++ l).
      { unfold lc_step. rewrite Hi. cbn. eauto. }
      destruct Hlog as [l Hlog].
      destruct (li_bye ts c HI Ec) as [Hb|(j & r & Hb)]; [|right; exists j, r; rewrite Hlog; set_solver].
      destruct p eqn:Ep; try (left; apply (step_at c i t p); subst p; [done|by cbn|done]).
      right. exists i, r. unfold lc_step. rewrite Hi. cbn. set_solver.
  - intros j u q Hj. assert (Hl : lives j (lf_log (lc_step c i)) =
      lives j (lf_log c) ++ lives j (match (lc_step1 t p (lf_state c)).2 with Some e => [(i, e)] | None => [] end)).
    { unfold lc_step. rewrite Hi. cbn [lf_log]. apply lives_app. }
    rewrite Hl. destruct (Hlk j u q Hj) as [(<- & -> & ->)|[Hne Hj']].
    + by apply (lgood_step ts t p), (li_log ts c HI i t p Hi).
    + assert (lives j (match (lc_step1 t p (lf_state c)).2 with Some e => [(i, e)] | None => [] end) = []) as ->.
      { destruct (lc_step1 t p (lf_state c)).2; [by apply lives_other|done]. }
      rewrite app_nil_r. by apply (li_log ts c HI j u q Hj').
Qed.

Lemma LI_start s ts : settled s → Forall (λ t, ¬ admits t) ts → LI ts (LConf s ((λ t, (t, QStart)) <$> ts) []).
Proof.
  intros (H1 & H2 & H3 & H4 & H5) Hf.
  assert (Hlk : ∀ i t p, ((λ t, (t, QStart)) <$> ts) !! i = Some (t, p) → p = QStart ∧ t ∈ ts).
  { intros i t p. rewrite list_lookup_fmap. destruct (ts !! i) as [x|] eqn:E; [|done]. intros [= <- <-]. split; [done|]. by eapply elem_of_list_lookup_2. }
  split; cbn; try congruence.
  - rewrite <- list_fmap_compose. induction ts as [|x xs IH]; [done|]. cbn. f_equal. inversion Hf; subst.  apply IH; [done|].
    intros i t p Hi. specialize (Hlk (S i) t p Hi). rewrite list_lookup_fmap in Hi.
    destruct (xs !! i) as [y|] eqn:E; [|done]. injection Hi as <- <-. split; [done|]. by eapply elem_of_list_lookup_2.
  - intros i t p Hi. apply Hlk in Hi as [-> Hi]. split; [|done]. by rewrite Forall_forall in Hf; apply Hf.
  - intros [|]; congruence.
  - intros i t p Hi Hl. apply Hlk in Hi as [-> Hi]. by destruct Hl.
  - intros i t p Hi. apply Hlk in Hi as [-> Hi]. by split.
Qed.
Lemma LI_run s ts sched : settled s → Forall (λ t, ¬ admits t) ts → LI ts (lc_run s ts sched).
Proof.
  intros Hs Hf. unfold lc_run. induction sched as [|i l IH] using rev_ind; [by apply LI_start|].
  rewrite foldl_app. by apply LI_step.
Qed.

(** ** The claims *)
Lemma run_app s ts l1 l2 : lc_run s ts (l1 ++ l2) = foldl lc_step (lc_run s ts l1) l2.
Proof. unfold lc_run. by rewrite foldl_app. Qed.

Lemma no_at c (P : lpc → Prop) : returned c → ¬ P QDone → ¬ at_pc c P.
Proof. intros Hr Hn (i & t & p & Hi & Hp). rewrite (Hr i t p Hi) in Hp. done. Qed.

Lemma c51_gone_l s ts sched t :
  settled s → Forall (λ t, ¬ admits t) ts → t ∈ ts → closes t → returned (lc_run s ts sched) →
  gone (lf_state (lc_run s ts sched)) ∧ ∀ r, r ∈ ls_rooms (lf_state (lc_run s ts sched)) → joinable ts r.
Proof.
  intros Hs Hf Ht Hc Hr. pose proof (LI_run s ts sched Hs Hf) as HI. set (c := lc_run s ts sched) in *.
  assert (Hd : ls_connected (lf_state c) = false).
  { rewrite <- (li_ts ts c HI) in Ht. apply elem_of_list_fmap in Ht as ([t' p] & -> & Ht). apply elem_of_list_lookup in Ht as [i Hi].
    pose proof (Hr i _ _ Hi) as ->. destruct (li_late ts c HI i _ _ Hi) as [H|H]; [by split|done|].
    exfalso. revert H. apply no_at; [done|done]. }
  destruct (li_off ts c HI Hd) as (H1 & H2 & H3 & H4). split; [|done].
  repeat (split; [done|]). destruct (li_nsp ts c HI H4) as [H|H]; [done|]. exfalso. revert H. apply no_at; [done|auto].
Qed.

Lemma events_lives i c : endings i c = lives i (lf_log c).
Proof.
  unfold endings, events_of, lives. induction (lf_log c) as [|[j e] l IH]; [done|]. cbn.
  destruct (decide (j = i)); [|done]. destruct e; cbn; first [rewrite decide_True by exact I|rewrite decide_False by auto]; first [exact IH|f_equal; exact IH].
Qed.
Lemma lives_none s ts sched i : lf_calls (lc_run s ts sched) !! i = None → lives i (lf_log (lc_run s ts sched)) = [].
Proof.
    unfold lc_run.
    assert (Hlen : ∀ l, length (lf_calls (foldl lc_step (LConf s ((λ t, (t, QStart)) <$> ts) []) l)) = length ts).
    { intros l. induction l as [|j l IH] using rev_ind; cbn; [by rewrite fmap_length|]. rewrite foldl_app. cbn. unfold lc_step at 1.
      destruct (_ !! j) as [[t p]|]; cbn; [|done]. by rewrite insert_length. }
    induction sched as [|j l IH] using rev_ind; [done|]. intros Hi. apply lookup_ge_None in Hi. rewrite Hlen in Hi.
    rewrite foldl_app. cbn [foldl]. unfold lc_step at 1. destruct (_ !! j) as [[t p]|] eqn:Hj; cbn [lf_log].
    + rewrite lives_app, IH by (apply lookup_ge_None; by rewrite Hlen). apply lookup_lt_Some in Hj. rewrite Hlen in Hj.
      destruct (lc_step1 _ _ _).2; [|done]. rewrite lives_other; [done|lia].
    + apply IH. apply lookup_ge_None. by rewrite Hlen.
Qed.

Lemma c51_call_l s ts sched i :
  settled s → Forall (λ t, ¬ admits t) ts → ∃ r, endings i (lc_run s ts sched) `prefix_of` [VDisconnecting r; VDisconnect r].
Proof.
  intros Hs Hf. pose proof (LI_run s ts sched Hs Hf) as HI. set (c := lc_run s ts sched) in *. rewrite events_lives.
  destruct (lf_calls c !! i) as [[t p]|] eqn:Hi.
  - pose proof (li_log ts c HI i t p Hi) as Hg.
    assert (lives i (lf_log c) = [] ∨ (∃ r, lives i (lf_log c) = [VDisconnecting r]) ∨ ∃ r, lives i (lf_log c) = [VDisconnecting r; VDisconnect r]) as Hl.
    { destruct Hg as [_ Hg]. destruct p; cbn in Hg; naive_solver. }
    destruct Hl as [->|[[r ->]|[r ->]]]; [exists ""|exists r|exists r]; by eexists.
  - exists "". assert (lives i (lf_log c) = []) as ->; [|by eexists]. by apply lives_none.
Qed.

Lemma lives_disconnect i r l : VDisconnect r ∈ lives i l ↔ (i, VDisconnect r) ∈ l.
Proof.
  unfold lives. rewrite elem_of_list_omap. split.
  - intros ([j e] & H & He). cbn in He. destruct (decide (j = i)) as [->|]; [|done]. destruct (is_life e); [|done]. by injection He as ->.
  - intros H. exists (i, VDisconnect r). split; [done|]. cbn. by rewrite decide_True.
Qed.
Definition bye_ids (l : list (nat * lev)) : list nat := (filter (λ e, Is_true (is_disconnect e.2)) l).*1.
Lemma bye_ids_in i l : i ∈ bye_ids l ↔ ∃ r, (i, VDisconnect r) ∈ l.
Proof.
  unfold bye_ids. rewrite elem_of_list_fmap. split.
  - intros ([j e] & -> & H). apply elem_of_list_filter in H as [He H]. destruct e; try done. eauto.
  - intros [r H]. exists (i, VDisconnect r). split; [done|]. by apply elem_of_list_filter.
Qed.
Lemma bye_nodup l : (∀ i, ∃ r, lives i l `prefix_of` [VDisconnecting r; VDisconnect r]) → NoDup (bye_ids l).
Proof.
  assert (Hg : (∀ i, length (filter (λ e, Is_true (is_disconnect e)) (lives i l)) ≤ 1) → NoDup (bye_ids l)).
  { induction l as [|[j e] l IH]; intros H; [constructor|].
    assert (Hs : ∀ i, lives i ((j, e) :: l) = lives i [(j, e)] ++ lives i l) by (intros i; apply (lives_app i [(j, e)] l)).
    assert (IH' : NoDup (bye_ids l)).
    { apply IH. intros i. specialize (H i). rewrite Hs, filter_app, app_length in H. lia. }
    unfold bye_ids. destruct (decide (Is_true (is_disconnect e))) as [Hd|Hd].
    - rewrite filter_cons_True by done. cbn. constructor; [|done]. change (j ∉ bye_ids l). rewrite bye_ids_in. intros [r Hr].
      specialize (H j). rewrite Hs, lives_one, filter_app, app_length in H. destruct e; try done. cbn in H.
      apply lives_disconnect in Hr. assert (VDisconnect r ∈ filter (λ e, Is_true (is_disconnect e)) (lives j l)) as Hf by (by apply elem_of_list_filter).
      destruct (filter _ (lives j l)); [by apply elem_of_nil in Hf|]. cbn in H. rewrite decide_True in H by done. cbn in H. lia.
    - by rewrite filter_cons_False. }
  intros H. apply Hg. intros i. destruct (H i) as [r Hp].
  assert (H1 : lives i l = [] ∨ lives i l = [VDisconnecting r] ∨ lives i l = [VDisconnecting r; VDisconnect r]).
  { destruct (lives i l) as [|a [|b [|d l']]]; [by left| | |]; destruct Hp as [k Hk]; simplify_list_eq; auto. }
  destruct H1 as [->|[->| ->]]; cbn; repeat case_decide; cbn; lia.
Qed.
Lemma closers_count (ts : list lcall) (l : list nat) :
  NoDup l → (∀ i, i ∈ l → ∃ t, ts !! i = Some t ∧ closes t) → length l ≤ length (filter closes ts).
Proof.
  revert l. induction ts as [|t ts IH]; intros l Hn H.
  - destruct l as [|i l]; [done|]. destruct (H i) as (t & Ht & _); [left|done].
  - set (l' := pred <$> filter (λ i, i ≠ 0) l).
    assert (Hl' : length l' ≤ length (filter closes ts)).
    { apply IH.
      - apply NoDup_fmap_2_strong; [|by apply NoDup_filter].
        intros x y [Hx _]%elem_of_list_filter [Hy _]%elem_of_list_filter Hxy. lia.
      - intros i Hi. apply elem_of_list_fmap in Hi as (x & -> & Hx). apply elem_of_list_filter in Hx as [Hx Hxl].
        destruct (H x Hxl) as (u & Hu & Hc). exists u. split; [|done]. destruct x; [done|]. done. }
    unfold l' in Hl'. rewrite fmap_length in Hl'.
    assert (Hlen : length l = length (filter (λ i, i ≠ 0) l) + length (filter (λ i, i = 0) l)).
    { clear. induction l as [|x l IH]; [done|]. destruct (decide (x = 0)) as [->|].
      - rewrite filter_cons_False, filter_cons_True by lia. cbn. lia.
      - rewrite filter_cons_True, filter_cons_False by lia. cbn. lia. }
    assert (Hz : length (filter (λ i, i = 0) l) ≤ if decide (closes t) then 1 else 0).
    { destruct (filter (λ i, i = 0) l) as [|x [|y r]] eqn:E; cbn; [case_decide; lia| |].
      - assert (x ∈ filter (λ i, i = 0) l) as [-> Hx]%elem_of_list_filter by (rewrite E; left).
        destruct (H 0 Hx) as (u & [= <-] & Hc). rewrite decide_True by done. lia.
      - exfalso. assert (Hnd : NoDup (filter (λ i, i = 0) l)) by (by apply NoDup_filter).
        assert (x ∈ filter (λ i, i = 0) l) as [-> _]%elem_of_list_filter by (rewrite E; left).
        assert (y ∈ filter (λ i, i = 0) l) as [-> _]%elem_of_list_filter by (rewrite E; right; left).
        rewrite E in Hnd. inversion Hnd as [|? ? Hni]; subst. apply Hni. left. }
    destruct (decide (closes t)).
    + rewrite filter_cons_True by done. cbn. lia.
    + rewrite filter_cons_False by done. lia.
Qed.
Lemma c51_count_l s ts sched :
  settled s → Forall (λ t, ¬ admits t) ts → disconnects (lc_run s ts sched) ≤ length (filter closes ts).
Proof.
  intros Hs Hf. pose proof (LI_run s ts sched Hs Hf) as HI.
  assert (Hn : NoDup (bye_ids (lf_log (lc_run s ts sched)))).
  { apply bye_nodup. intros i. rewrite <- events_lives. by apply c51_call_l. }
  pose proof (c51_call_l s ts sched) as Hcall.
  set (c := lc_run s ts sched) in *.
  assert (disconnects c = length (bye_ids (lf_log c))) as ->; [unfold disconnects, bye_ids; by rewrite fmap_length|].
  apply closers_count; [done|]. intros i Hi. apply bye_ids_in in Hi as [r Hi]. apply lives_disconnect in Hi.
  destruct (lf_calls c !! i) as [[t p]|] eqn:Hp.
  - exists t. split; [rewrite <- (li_ts ts c HI), list_lookup_fmap, Hp; done|].
    destruct (li_log ts c HI i t p Hp) as [Hg _]. destruct (decide (closes t)) as [|Hc]; [done|]. rewrite (Hg Hc) in Hi. by apply elem_of_nil in Hi.
  - exfalso. subst c. rewrite (lives_none s ts sched i Hp) in Hi. by apply elem_of_nil in Hi.
Qed.

Lemma c51_said_l s ts sched t :
  settled s → Forall (λ t, ¬ admits t) ts → t ∈ ts → closes t → returned (lc_run s ts sched) → 1 ≤ disconnects (lc_run s ts sched).
Proof.
  intros Hs Hf Ht Hc Hr. pose proof (LI_run s ts sched Hs Hf) as HI.
  destruct (c51_gone_l s ts sched t Hs Hf Ht Hc Hr) as [(Hg & _) _]. set (c := lc_run s ts sched) in *.
  destruct (li_bye ts c HI Hg) as [H|(i & r & H)].
  - exfalso. revert H. apply no_at; [done|auto].
  - unfold disconnects. assert (Hin : (i, VDisconnect r) ∈ filter (λ e : nat * lev, Is_true (is_disconnect e.2)) (lf_log c)).
    { apply elem_of_list_filter. by split. }
    destruct (filter _ (lf_log c)); [by apply elem_of_nil in Hin|cbn; lia].
Qed.

(** Once canJoin is cleared, only the Join calls that have already read it add rooms. *)
Definition noadm (c : lconf) : Prop := ∀ i t p, lf_calls c !! i = Some (t, p) → ¬ admits t.
Lemma step_lookup c i j t p : lf_calls (lc_step c i) !! j = Some (t, p) →
  ∃ q, lf_calls c !! j = Some (t, q) ∧ (i = j ∧ p = (lc_step1 t q (lf_state c)).1.1 ∨ p = q).
Proof.
  unfold lc_step. destruct (lf_calls c !! i) as [[u q]|] eqn:Hi; [|by eauto]. cbn.
  intros [(-> & H & _)|[Hne H]]%list_lookup_insert_Some; [injection H as -> <-; eauto|eauto].
Qed.
Record after_flag (c0 c : lconf) : Prop := {
  af_can : ls_can (lf_state c) = false;
  af_calls : ∀ i t p, lf_calls c !! i = Some (t, p) → ¬ admits t ∧
    (p = QAdd → lf_calls c0 !! i = Some (t, QAdd) ∧ ∃ rs, t = LcJoin rs) ∧
    match p with QStore | QMark | QCan | QOwn | QPacket | QTable | QNsps | QConnect | QConnection | QLeft | QRemove | QFlag | QError => False | _ => True end;
  af_rooms : ∀ r, r ∈ ls_rooms (lf_state c) → r ∈ ls_rooms (lf_state c0) ∨ joining c0 r }.
Lemma after_flag_step c0 c i : after_flag c0 c → after_flag c0 (lc_step c i).
Proof.
  intros H. destruct (lf_calls c !! i) as [[t p]|] eqn:Hi; [|unfold lc_step; by rewrite Hi].
  destruct (af_calls c0 c H i t p Hi) as (Ha & Hadd & Hp). pose proof (af_can c0 c H) as Hc.
  pose proof (step_state c i t p Hi) as Hst. split.
  - rewrite Hst. destruct p; try done; cbn; destruct t; done.
  - intros j u q (q' & Hj & Hq)%step_lookup. destruct (af_calls c0 c H j u q' Hj) as (Ha' & Hadd' & Hp').
    destruct Hq as [[-> ->]| ->]; [|done]. rewrite Hi in Hj. injection Hj as <- <-. split; [done|].
    destruct p; try done; cbn; repeat case_match; try done; try (destruct k; done); congruence.
  - intros r. rewrite Hst. intros Hr. assert (Hd : p = QAdd ∨ p ≠ QAdd) by (destruct p; auto). destruct Hd as [->|Hne].
    + destruct Hadd as [Hc0 [rs ->]]; [done|]. cbn in Hr. apply elem_of_union in Hr as [Hr|Hr]; [|by apply (af_rooms c0 c H)].
      right. by exists i, rs.
    + apply (af_rooms c0 c H). destruct p; try done; cbn in Hr; repeat case_match; cbn in Hr; try done; try set_solver.
Qed.
Lemma c51_join_l s ts l1 l2 r :
  settled s → Forall (λ t, ¬ admits t) ts → ls_can (lf_state (lc_run s ts l1)) = false →
  r ∈ ls_rooms (lf_state (lc_run s ts (l1 ++ l2))) → r ∈ ls_rooms (lf_state (lc_run s ts l1)) ∨ joining (lc_run s ts l1) r.
Proof.
  intros Hs Hf Hc. pose proof (LI_run s ts l1 Hs Hf) as HI. rewrite run_app. apply af_rooms.
  set (c0 := lc_run s ts l1) in *. induction l2 as [|i l IH] using rev_ind; [|rewrite foldl_app; by apply after_flag_step].
  split; [done| |by left].
  intros i t p Hi. destruct (li_ok ts c0 HI i t p Hi) as [Ha Hp]. split; [done|]. split.
  - intros ->. by split.
  - destruct p; done.
Qed.

(** Once the socket has told its end, calls that start later say nothing. *)
Lemma bye_off_l s ts sched i r :
  settled s → Forall (λ t, ¬ admits t) ts → (i, VDisconnect r) ∈ lf_log (lc_run s ts sched) → ls_connected (lf_state (lc_run s ts sched)) = false.
Proof.
  intros Hs Hf. induction sched as [|j l IH] using rev_ind; [by intros H%elem_of_nil|].
  pose proof (LI_run s ts l Hs Hf) as HI. rewrite run_app. cbn [foldl]. set (c := lc_run s ts l) in *.
  unfold lc_step. destruct (lf_calls c !! j) as [[t p]|] eqn:Hj; [|by auto]. cbn [lf_log lf_state].
  assert (Ht : t ∈ ts). { rewrite <- (li_ts ts c HI). apply elem_of_list_fmap. exists (t, p). split; [done|]. by eapply elem_of_list_lookup_2. }
  pose proof (li_ok ts c HI j t p Hj) as Hok. destruct (step1_mono ts t p (lf_state c) Ht Hok) as (M & _).
  intros [H|H]%elem_of_app; [by auto|]. apply M. clear M IH.
  destruct Hok as [_ Hok]. destruct p; cbn in Hok, H; try done; repeat case_match; simplify_eq/=; try (by apply elem_of_nil in H).
  all: try (apply elem_of_list_singleton in H; done). by destruct Hok.
Qed.
Definition said (p : lpc) : bool := match p with QBye _ _ => true | _ => mid p end.
Lemma late_step ts c i : LI ts c → ls_connected (lf_state c) = false → lives i (lf_log c) = [] →
  (∀ t p, lf_calls c !! i = Some (t, p) → said p = false) → ∀ j,
  ls_connected (lf_state (lc_step c j)) = false ∧ lives i (lf_log (lc_step c j)) = [] ∧
  (∀ t p, lf_calls (lc_step c j) !! i = Some (t, p) → said p = false).
Proof.
  intros HI Hc Hl Hp j. unfold lc_step. destruct (lf_calls c !! j) as [[u q]|] eqn:Hj; [|done]. cbn [lf_log lf_state lf_calls].
  assert (Ht : u ∈ ts). { rewrite <- (li_ts ts c HI). apply elem_of_list_fmap. exists (u, q). split; [done|]. by eapply elem_of_list_lookup_2. }
  pose proof (li_ok ts c HI j u q Hj) as Hok. destruct (step1_mono ts u q (lf_state c) Ht Hok) as (M & _).
  split; [by apply M|]. rewrite lives_app, Hl. cbn [app]. destruct (decide (j = i)) as [->|Hne].
  - pose proof (Hp u q Hj) as Hq. split.
    + destruct (lc_step1 u q (lf_state c)).2 as [e|] eqn:E; [|done]. rewrite lives_one. destruct (is_life e) eqn:El; [|done]. exfalso.
      destruct q; try done; cbn in E; repeat case_match; simplify_eq; done.
    + intros t p H. rewrite list_lookup_insert in H by (by eapply lookup_lt_Some). injection H as <- <-.
      destruct q; try done; cbn; rewrite ?Hc; try (by destruct k); repeat case_match; done.
  - split; [by destruct (lc_step1 u q (lf_state c)).2; [rewrite lives_other by done|]|].
    intros t p. rewrite list_lookup_insert_ne by done. apply Hp.
Qed.
Lemma idle_start s ts l i t p : i ∉ l → lf_calls (lc_run s ts l) !! i = Some (t, p) → p = QStart.
Proof.
  induction l as [|j l IH] using rev_ind.
  - intros _. unfold lc_run. cbn. rewrite list_lookup_fmap. destruct (ts !! i); naive_solver.
  - rewrite not_elem_of_app. intros [Hi Hj]. rewrite run_app. cbn [foldl]. intros (q & Hq & [[-> _]| ->])%step_lookup; [by destruct Hj; left|auto].
Qed.
Lemma c51_late_l s ts l1 l2 i :
  settled s → Forall (λ t, ¬ admits t) ts → 1 ≤ disconnects (lc_run s ts l1) → i ∉ l1 → endings i (lc_run s ts (l1 ++ l2)) = [].
Proof.
  intros Hs Hf Hd Hi.
  assert (Hoff : ls_connected (lf_state (lc_run s ts l1)) = false).
  { unfold disconnects in Hd. destruct (filter _ (lf_log (lc_run s ts l1))) as [|[k e] rest] eqn:E; [cbn in Hd; lia|].
    assert (H : (k, e) ∈ filter (λ e : nat * lev, Is_true (is_disconnect e.2)) (lf_log (lc_run s ts l1))) by (rewrite E; left).
    apply elem_of_list_filter in H as [H1 H2]. cbn in H1. destruct e; try done. by apply (bye_off_l s ts l1 k r). }
  rewrite events_lives.
  assert (Hgoal : ls_connected (lf_state (lc_run s ts (l1 ++ l2))) = false ∧ lives i (lf_log (lc_run s ts (l1 ++ l2))) = [] ∧
    (∀ t p, lf_calls (lc_run s ts (l1 ++ l2)) !! i = Some (t, p) → said p = false)); [|tauto].
  induction l2 as [|j l IH] using rev_ind.
  - rewrite app_nil_r. split; [done|]. split.
    + destruct (lf_calls (lc_run s ts l1) !! i) as [[t p]|] eqn:E; [|by apply lives_none].
      pose proof (idle_start s ts l1 i t p Hi E) as ->. by destruct (li_log ts _ (LI_run s ts l1 Hs Hf) i t QStart E).
    + intros t p H. by rewrite (idle_start s ts l1 i t p Hi H).
  - rewrite app_assoc, run_app. cbn [foldl]. destruct IH as (A & B & C). apply (late_step ts); [by apply LI_run|done|done|done].
Qed.

(** A refused socket, or one whose connection was closed before the check. *)
Record refusal (c : lconf) : Prop := {
  rf_off : ls_connected (lf_state c) = false ∧ ls_listed (lf_state c) = false ∧ ls_csock (lf_state c) = false ∧ ls_cnsp (lf_state c) = false;
  rf_calls : ∀ i t p, lf_calls c !! i = Some (t, p) →
    match t with
    | LcConnect _ b => (ls_open (lf_state c) = false ∨ b = true) ∧
        match p with QStart | QLeft | QRemove | QFlag => True | QError | QDone => ls_can (lf_state c) = false | _ => False end
    | LcTransport _ => match p with QStart | QRange | QClear | QDone => True | _ => False end
    | LcClient => match p with QStart | QRange1 | QClear1 | QReady | QHang | QRange | QClear | QDone => True | _ => False end
    | LcPacket => match p with QStart | QOpen _ KEnd | QDone => True | _ => False end
    | LcJoin _ => match p with QStart | QAdd | QDone => True | _ => False end
    | _ => match p with QStart | QDone => True | _ => False end
    end;
  rf_log : ∀ e, e ∈ lf_log c → e.2 = VDenied }.
Lemma refusal_step c i : refusal c → refusal (lc_step c i).
Proof.
  intros [(H1 & H2 & H3 & H4) Hcs Hlog]. destruct (lf_calls c !! i) as [[t p]|] eqn:Hi; [|unfold lc_step; by rewrite Hi].
  pose proof (Hcs i t p Hi) as Hp. pose proof (step_state c i t p Hi) as Hst.
  assert (Hm : (ls_open (lf_state c) = false → ls_open (lc_step1 t p (lf_state c)).1.2 = false) ∧
    (ls_can (lf_state c) = false → ls_can (lc_step1 t p (lf_state c)).1.2 = false)).
  { split; destruct p; try done; cbn; repeat (case_match; cbn); done. }
  destruct Hm as [Hm1 Hm2].
  split.
  - rewrite Hst. destruct t, p; cbn; try done; naive_solver.
  - intros j u q (q' & Hj & Hq)%step_lookup. pose proof (Hcs j u q' Hj) as Hj'. rewrite Hst.
    destruct Hq as [[-> ->]| ->]; [rewrite Hi in Hj; injection Hj as <- <-|].
    + destruct t, p; cbn; try done; rewrite ?H1, ?H2, ?H3; cbn; repeat case_match; cbn; try done; try naive_solver.
    + destruct u; try done. destruct Hj' as [Ho Hj']. split; [naive_solver|]. destruct q'; auto.
  - unfold lc_step. rewrite Hi. cbn. intros e [He|He]%elem_of_app; [by apply Hlog|].
    clear Hm1 Hm2 Hst Hcs Hlog Hi. revert Hp He.
    destruct t, p; cbn; try tauto; destruct (ls_open (lf_state c)); cbn; intros Hp He; try (by destruct Hp); try (by apply elem_of_nil in He).
    all: try (apply elem_of_list_singleton in He as ->; done). all: repeat case_match; cbn in He; try done; by apply elem_of_nil in He.
Qed.
Lemma c51_refused_l s ts sched own b :
  fresh s → LcConnect own b ∈ ts → Forall (λ t, match t with LcConnect own' b' => own' = own ∧ b' = b | _ => True end) ts →
  ls_open s = false ∨ b = true →
  ls_connected (lf_state (lc_run s ts sched)) = false ∧ (∀ e, e ∈ lf_log (lc_run s ts sched) → e.2 = VDenied) ∧
  (returned (lc_run s ts sched) → gone (lf_state (lc_run s ts sched))).
Proof.
  intros (F1 & F2 & F3 & F4 & F5) Hin Hf Ho.
  assert (HR : refusal (lc_run s ts sched)).
  { unfold lc_run. induction sched as [|i l IH] using rev_ind; [|rewrite foldl_app; by apply refusal_step].
    split; [done| |by intros e He; apply elem_of_nil in He].
    intros i t p. cbn. rewrite list_lookup_fmap. destruct (ts !! i) as [x|] eqn:E; [|done]. intros [= <- <-].
    rewrite Forall_forall in Hf. apply elem_of_list_lookup_2 in E. specialize (Hf x E). destruct x; try done. by destruct Hf as [-> ->]. }
  assert (Hts : (lf_calls (lc_run s ts sched)).*1 = ts).
  { unfold lc_run. clear HR. induction sched as [|i l IH] using rev_ind.
    - cbn. rewrite <- list_fmap_compose. clear. by induction ts as [|x xs IH]; cbn; [|f_equal].
    - rewrite foldl_app. cbn [foldl]. unfold lc_step at 1. destruct (_ !! i) as [[t p]|] eqn:E; [|done]. cbn [lf_calls].
      rewrite list_fmap_insert. cbn [fst]. rewrite list_insert_id; [done|]. by rewrite list_lookup_fmap, E. }
  set (c := lc_run s ts sched) in *. destruct HR as [(H1 & H2 & H3 & H4) Hcs Hlog].
  split; [done|]. split; [done|]. intros Hr.
  rewrite <- Hts in Hin. apply elem_of_list_fmap in Hin as ([t p] & Heq & Hp). cbn in Heq. subst t. apply elem_of_list_lookup in Hp as [i Hi].
  pose proof (Hr i _ _ Hi) as ->. destruct (Hcs i _ _ Hi) as [_ Hcan]. done.
Qed.

(** An admission that nobody disturbs. *)
Definition cn_state (b : bool) (p : lpc) (s : lstate) : Prop :=
  ls_open s = true ∧ ls_can s = true ∧
  match p with
  | QStart | QStore => ls_connected s = false
  | QMark => ls_listed s = true
  | QCan | QOwn | QPacket | QTable => ls_listed s = true ∧ ls_connected s = true
  | QNsps => ls_listed s = true ∧ ls_connected s = true ∧ ls_csock s = true
  | QConnect | QConnection | QDone => settled s
  | _ => False
  end.
Definition cn_log (p : lpc) : list lev :=
  match p with QTable | QNsps | QConnect => [VPacket] | QConnection => [VPacket; VConnect] | QDone => [VPacket; VConnect; VConnection] | _ => [] end.
Record admission (own : room) (c : lconf) : Prop := {
  ad_first : ∃ p, lf_calls c !! 0 = Some (LcConnect own false, p) ∧ cn_state false p (lf_state c) ∧ (lf_log c).*2 = cn_log p;
  ad_rest : ∀ i t p, lf_calls c !! S i = Some (t, p) → ¬ admits t ∧ ¬ closes t ∧ match p with QStart | QAdd | QDone => True | _ => False end }.
Lemma admission_step own c i : admission own c → admission own (lc_step c i).
Proof.
  intros [(p & H0 & Hs & Hl) Hr]. destruct (lf_calls c !! i) as [[t q]|] eqn:Hi; [|unfold lc_step; rewrite Hi; split; eauto].
  destruct i as [|i].
  - rewrite H0 in Hi. injection Hi as <- <-. split.
    + exists (lc_step1 (LcConnect own false) p (lf_state c)).1.1. unfold lc_step. rewrite H0. cbn [lf_calls lf_state lf_log].
      rewrite list_lookup_insert by (by eapply lookup_lt_Some). split; [done|]. rewrite fmap_app, Hl. destruct Hs as (Ho & Hc & Hs).
      unfold cn_state. destruct p; try done; cbn; rewrite ?Ho, ?Hc; cbn; unfold settled in *; cbn; naive_solver.
    + intros j u q Hj. apply (Hr j). unfold lc_step in Hj. rewrite H0 in Hj. cbn in Hj. by destruct (lf_calls c).
  - destruct (Hr i t q Hi) as (Ha & Hc & Hq). split.
    + exists p. unfold lc_step. rewrite Hi. cbn [lf_calls lf_state lf_log]. rewrite list_lookup_insert_ne by lia. split; [done|].
      destruct t; try (by cbn in *; tauto); destruct q; try done; cbn; rewrite ?app_nil_r; try (by split); unfold cn_state, settled in *; cbn; by destruct p.
    + intros j u q' (q'' & Hj & Hq')%step_lookup. destruct (Hr j u q'' Hj) as (Ha' & Hc' & Hq''). split; [done|]. split; [done|].
      destruct Hq' as [[[= ->] ->]| ->]; [|done]. rewrite Hi in Hj. injection Hj as <- <-.
      destruct t; try (by cbn in *; tauto); destruct q; try done; cbn; by destruct (ls_can _).
Qed.
Lemma c51_admitted_l s ts sched own :
  fresh s → ls_open s = true → Forall (λ t, ¬ admits t ∧ ¬ closes t) ts → returned (lc_run s (LcConnect own false :: ts) sched) →
  settled (lf_state (lc_run s (LcConnect own false :: ts) sched)) ∧ (lf_log (lc_run s (LcConnect own false :: ts) sched)).*2 = [VPacket; VConnect; VConnection].
Proof.
  intros (F1 & F2 & F3 & F4 & F5) Ho Hf Hr.
  assert (HA : admission own (lc_run s (LcConnect own false :: ts) sched)).
  { unfold lc_run. clear Hr. induction sched as [|i l IH] using rev_ind; [|rewrite foldl_app; by apply admission_step].
    split; [by exists QStart|]. intros i t p. change (((λ t, (t, QStart)) <$> ts) !! i = Some (t, p) → ¬ admits t ∧ ¬ closes t ∧ match p with QStart | QAdd | QDone => True | _ => False end). rewrite list_lookup_fmap. destruct (ts !! i) as [x|] eqn:E; [|done]. intros [= <- <-].
    rewrite Forall_forall in Hf. apply elem_of_list_lookup_2 in E. destruct (Hf x E). done. }
  destruct HA as [(p & Hp & Hs & Hl) _]. pose proof (Hr 0 _ _ Hp) as ->. by destruct Hs as (_ & _ & Hs).
Qed.
