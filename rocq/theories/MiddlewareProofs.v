(** Proofs about [Middleware.v]. *)
From Verif Require Import Base GoTypes Middleware MiddlewareSpec.

Lemma mexec_app md ls1 ls2 s : mexec md (ls1 ++ ls2) s = mexec md ls1 s ≫= mexec md ls2.
Proof. revert s. induction ls1 as [|l ls1 IH]; intros s; simpl; [done|]. destruct (mstep md l s); simpl; [apply IH|done]. Qed.
Lemma mexec_ind md (I : list mlabel → mst → Prop) : I [] mst0 →
  (∀ ls l s s', mexec md ls mst0 = Some s → I ls s → mstep md l s = Some s' → I (ls ++ [l]) s') →
  ∀ ls s, mexec md ls mst0 = Some s → I ls s.
Proof.
  intros H0 Hstep ls. induction ls as [|l ls IH] using rev_ind; intros s; [by intros [= <-]|].
  rewrite mexec_app. destruct (mexec md ls mst0) as [s1|] eqn:E; [|done]. simpl.
  destruct (mstep md l s1) as [s2|] eqn:E2; [|done]. intros [= <-]. eapply Hstep; eauto.
Qed.
Lemma uses_app l1 l2 : uses (l1 ++ l2) = uses l1 ++ uses l2.
Proof. apply omap_app. Qed.
Lemma attempts_app us l1 l2 : attempts us (l1 ++ l2) = attempts us l1 ++ attempts (us ++ uses l1) l2.
Proof.
  revert us. induction l1 as [|l l1 IH]; intros us; simpl; [by rewrite app_nil_r|].
  destruct l; simpl; try (apply IH). - rewrite IH. by rewrite <- app_assoc. - f_equal. apply IH.
Qed.
Lemma attempts_snoc ls l : attempts [] (ls ++ [l]) = attempts [] ls ++ match l with MStart g sk p3 => [(g, sk, p3, uses ls)] | _ => [] end.
Proof. rewrite attempts_app. simpl. by destruct l. Qed.
Lemma answers_app l1 l2 a : answers (l1 ++ l2) a = answers l1 a ++ answers l2 a.
Proof. apply omap_app. Qed.
Lemma answerers_app l1 l2 a : answerers (l1 ++ l2) a = answerers l1 a ++ answerers l2 a.
Proof. apply omap_app. Qed.
Lemma passing_app a i fs gs : passing a i (fs ++ gs) = passing a i fs ++ passing a (i + length fs) gs.
Proof.
  revert i. induction fs as [|f fs IH]; intros i; simpl; [by rewrite Nat.add_0_r|]. rewrite IH. by rewrite <- plus_n_Sm.
Qed.

(** ** The gate: nothing gets through without every middleware having passed it. *)
Definition skipped (x : att) : Prop := at_fns x = [] ∧ at_inv x = [] ∧ ∃ t, at_tasks x = [t] ∧ (t = TGo ∨ t = TDone).
Record walked (log : list mev) (a : nat) (x : att) : Prop := {
  wk_inv : ∀ k i, at_inv x !! k = Some i → ∃ f, at_fns x !! i = Some f ∧ passing a 0 (take i (at_fns x)) ++ [CInv a i f] `sublist_of` log;
  wk_start : TStart None ∈ at_tasks x → passing a 0 (at_fns x) `sublist_of` log;
  wk_go : TGo ∈ at_tasks x → passing a 0 (at_fns x) `sublist_of` log }.
Definition attok (md : mode) (ls : list mlabel) (log : list mev) (a : nat) (x : att) : Prop :=
  ∃ g sk p3 us, attempts [] ls !! a = Some (g, sk, p3, us) ∧ at_gate x = g ∧ at_p3 x = p3 ∧
    ((md = NsMode ∧ sk = true ∧ skipped x) ∨ (at_fns x = us ∧ walked log a x)).
Definition gook (md : mode) (ls : list mlabel) (log : list mev) (a : nat) : Prop :=
  ∃ g sk p3 us, attempts [] ls !! a = Some (g, sk, p3, us) ∧
    ((md = NsMode ∧ sk = true) ∨ passing a 0 us ++ [CGo a] `sublist_of` log).
Record minv (md : mode) (ls : list mlabel) (s : mst) : Prop := {
  mi_fns : m_fns s = uses ls;
  mi_len : length (m_att s) = length (attempts [] ls);
  mi_att : ∀ a x, m_att s !! a = Some x → attok md ls (m_log s) a x;
  mi_go : ∀ a, CGo a ∈ m_log s → gook md ls (m_log s) a;
  mi_closed : ∀ g, g ∈ m_closed s ↔ MClose g ∈ ls }.

Lemma walked_mono log evs a x : walked log a x → walked (log ++ evs) a x.
Proof.
  intros [H1 H2 H3]. split.
  - intros k i Hi. destruct (H1 k i Hi) as (f&?&?). exists f. split; [done|]. by apply sublist_inserts_r.
  - intros. apply sublist_inserts_r; auto.
  - intros. apply sublist_inserts_r; auto.
Qed.
Lemma att_lookup_mono ls l a v : attempts [] ls !! a = Some v → attempts [] (ls ++ [l]) !! a = Some v.
Proof. intros H. rewrite attempts_snoc. by apply lookup_app_l_Some. Qed.
Lemma attok_mono md ls l log evs a x : attok md ls log a x → attok md (ls ++ [l]) (log ++ evs) a x.
Proof.
  intros (g&sk&p3&us&H1&H2&H3&H4). exists g, sk, p3, us. split; [by apply att_lookup_mono|]. split; [done|]. split; [done|].
  destruct H4 as [?|[? ?]]; [by left|right]. split; [done|]. by apply walked_mono.
Qed.
Lemma gook_mono md ls l log evs a : gook md ls log a → gook md (ls ++ [l]) (log ++ evs) a.
Proof.
  intros (g&sk&p3&us&H1&H2). exists g, sk, p3, us. split; [by apply att_lookup_mono|]. destruct H2 as [?|?]; [by left|right]. by apply sublist_inserts_r.
Qed.

Lemma mclosed_snoc ls l g : MClose g ∈ ls ++ [l] ↔ MClose g ∈ ls ∨ l = MClose g.
Proof. rewrite elem_of_app, elem_of_list_singleton. naive_solver. Qed.

(** A step that changes attempt [a] only. *)
Lemma minv_at md ls l s a x y evs : minv md ls s → (∀ g, l ≠ MClose g) → uses [l] = [] → (∀ g sk p3, l ≠ MStart g sk p3) →
  m_att s !! a = Some x →
  at_gate y = at_gate x → at_p3 y = at_p3 x → at_fns y = at_fns x →
  (skipped x → skipped y) → (walked (m_log s) a x → walked (m_log s ++ evs) a y) →
  (∀ b, CGo b ∈ evs → b = a ∧ evs = [CGo a] ∧ TGo ∈ at_tasks x) →
  minv md (ls ++ [l]) (MSt (m_fns s) (m_closed s) (<[a := y]> (m_att s)) (m_log s ++ evs)).
Proof.
  intros Hi Hnc Hnu Hns Hx Hg Hp Hf Hsk Hwk Hgo. split; cbn [m_fns m_closed m_att m_log].
  - rewrite uses_app, Hnu, app_nil_r. apply Hi.
  - rewrite insert_length, attempts_snoc, (mi_len _ _ _ Hi). destruct l; rewrite ?app_nil_r; try done. by destruct (Hns g skip p3).
  - intros b z Hz. apply list_lookup_insert_Some in Hz as [(<-&<-&_)|[Hne Hz]].
    + destruct (mi_att _ _ _ Hi a x Hx) as (g&sk&p3&us&H1&H2&H3&H4). exists g, sk, p3, us.
      split; [by apply att_lookup_mono|]. split; [congruence|]. split; [congruence|].
      destruct H4 as [(?&?&?)|[? ?]]; [left; auto|right]. split; [congruence|auto].
    + apply attok_mono. by apply (mi_att _ _ _ Hi).
  - intros b [Hb|Hb]%elem_of_app; [by apply gook_mono, (mi_go _ _ _ Hi)|].
    destruct (Hgo b Hb) as (->&->&Ht). destruct (mi_att _ _ _ Hi a x Hx) as (g&sk&p3&us&H1&H2&H3&H4).
    exists g, sk, p3, us. split; [by apply att_lookup_mono|]. destruct H4 as [(?&?&?)|[? Hw]]; [by left|right].
    apply sublist_app; [|done]. subst us. by apply (wk_go _ _ _ Hw).
  - intros g. rewrite mclosed_snoc, (mi_closed _ _ _ Hi). naive_solver.
Qed.

Lemma minv_start md ls s g sk p3 x evs : minv md ls s →
  (∀ b, CGo b ∉ evs) → at_gate x = g → at_p3 x = p3 →
  ((md = NsMode ∧ sk = true ∧ skipped x) ∨ (at_fns x = m_fns s ∧ walked (m_log s ++ evs) (length (m_att s)) x)) →
  minv md (ls ++ [MStart g sk p3]) (MSt (m_fns s) (m_closed s) (m_att s ++ [x]) (m_log s ++ evs)).
Proof.
  intros Hi Hng Hg Hp Hx. split; cbn [m_fns m_closed m_att m_log].
  - rewrite uses_app. simpl. rewrite app_nil_r. apply Hi.
  - rewrite attempts_snoc, !app_length, (mi_len _ _ _ Hi). done.
  - intros b z Hz. apply lookup_app_Some in Hz as [Hz|[Hlen Hz]].
    + apply attok_mono. by apply (mi_att _ _ _ Hi).
    + apply list_lookup_singleton_Some in Hz as [Hb <-]. assert (b = length (m_att s)) as -> by lia.
      exists g, sk, p3, (uses ls). split_and!; try done.
      * rewrite attempts_snoc, (mi_len _ _ _ Hi). by rewrite lookup_app_r, Nat.sub_diag by lia.
      * destruct Hx as [?|[Hf ?]]; [by left|right]. by rewrite Hf, (mi_fns _ _ _ Hi).
  - intros b [Hb|Hb]%elem_of_app; [by apply gook_mono, (mi_go _ _ _ Hi)|]. by destruct (Hng b).
  - intros h. rewrite mclosed_snoc, (mi_closed _ _ _ Hi). naive_solver.
Qed.

Lemma walked_run0 s a g p3 : ∀ x evs, mrun0 a g p3 (m_fns s) = (x, evs) →
  at_gate x = g ∧ at_p3 x = p3 ∧ at_fns x = m_fns s ∧ (∀ b, CGo b ∉ evs) ∧ ∀ pre, walked (pre ++ evs) a x.
Proof.
  unfold mrun0. intros x evs. destruct (m_fns s) as [|f fs] eqn:E; intros [= <- <-]; simpl; split_and!; try done.
  - intros b Hb. by apply elem_of_nil in Hb.
  - intros pre. split; simpl; try done. + intros _. apply sublist_nil_l. + intros H. by apply elem_of_list_singleton in H.
  - intros b Hb. by apply elem_of_list_singleton in Hb.
  - intros pre. split; simpl; [|by intros H; apply elem_of_nil in H..].
    intros k i [_ <-]%list_lookup_singleton_Some. exists f. split; [done|]. simpl. by apply sublist_inserts_l.
Qed.

Lemma minv_step md ls l s s' : minv md ls s → mstep md l s = Some s' → minv md (ls ++ [l]) s'.
Proof.
  intros Hi. destruct l as [f|g sk p3|a k err|a j|g]; cbn [mstep].
  - intros [= <-]. split; cbn [m_fns m_closed m_att m_log].
    + rewrite uses_app, (mi_fns _ _ _ Hi). done.
    + rewrite attempts_snoc, app_nil_r. apply Hi.
    + intros a x Hx. rewrite <- (app_nil_r (m_log s)). apply attok_mono. by apply (mi_att _ _ _ Hi).
    + intros a Ha. rewrite <- (app_nil_r (m_log s)). apply gook_mono. by apply (mi_go _ _ _ Hi).
    + intros h. rewrite mclosed_snoc, (mi_closed _ _ _ Hi). naive_solver.
  - intros [= <-]. unfold mstart. destruct (mrun0 (length (m_att s)) g p3 (m_fns s)) as [x evs] eqn:E0.
    destruct (walked_run0 _ _ _ _ _ _ E0) as (H1&H2&H3&H4&H5). destruct md.
    + destruct (sk && negb (bool_decide (g ∈ m_closed s))) eqn:E.
      * apply andb_true_iff in E as [-> E]. rewrite <- (app_nil_r (m_log s)) at 1. apply minv_start; try done.
        -- intros b Hb. by apply elem_of_nil in Hb.
        -- left. split; [done|]. split; [done|]. split; [done|]. split; [done|]. exists TGo. auto.
      * apply minv_start; try done. right. split; [done|apply H5].
    + change (CAny (length (m_att s)) :: evs) with ([CAny (length (m_att s))] ++ evs). apply minv_start; try done.
      * intros b [Hb|Hb]%elem_of_app; [by apply elem_of_list_singleton in Hb|by destruct (H4 b)].
      * right. split; [done|]. rewrite app_assoc. apply H5.
  - unfold mnext. destruct (m_att s !! a) as [x|] eqn:Hx; [|done]. destruct (at_inv x !! k) as [i|] eqn:Hk; [|done].
    assert (skipped x → False) as Hns. { intros (_&E&_). by rewrite E in Hk. }
    destruct err as [e|].
    + intros [= <-]. eapply minv_at; eauto; try done.
      * intros [W1 W2 W3]. split; unfold at_set_tasks; cbn [at_inv at_fns at_tasks].
        -- intros k' i' Hi'. destruct (W1 k' i' Hi') as (f&?&?). exists f. split; [done|]. by apply sublist_inserts_r.
        -- intros [H|H]%elem_of_app; [apply sublist_inserts_r; auto|by apply elem_of_list_singleton in H].
        -- intros [H|H]%elem_of_app; [apply sublist_inserts_r; auto|by apply elem_of_list_singleton in H].
      * intros b Hb. by apply elem_of_list_singleton in Hb.
    + destruct (Nat.leb (length (at_fns x) - 1) i) eqn:El.
      * intros [= <-]. eapply minv_at; eauto; try done.
        -- intros [W1 W2 W3]. split; unfold at_set_tasks; cbn [at_inv at_fns at_tasks].
           ++ intros k' i' Hi'. destruct (W1 k' i' Hi') as (f&?&?). exists f. split; [done|]. by apply sublist_inserts_r.
           ++ intros [H|H]%elem_of_app; [apply sublist_inserts_r; auto|].
              destruct (W1 k i Hk) as (f&Hf&Hsub). apply Nat.leb_le in El. pose proof (lookup_lt_Some _ _ _ Hf) as Hlt.
              rewrite <- (take_drop_middle _ _ _ Hf). rewrite passing_app.
              assert (drop (S i) (at_fns x) = []) as -> by (apply drop_ge; lia).
              rewrite take_length, Nat.min_l by lia. simpl.
              change [CInv a i f; CNext a i None] with ([CInv a i f] ++ [CNext a i None]). rewrite app_assoc. by apply sublist_app.
           ++ intros [H|H]%elem_of_app; [apply sublist_inserts_r; auto|by apply elem_of_list_singleton in H].
        -- intros b Hb. by apply elem_of_list_singleton in Hb.
      * destruct (at_fns x !! S i) as [f'|] eqn:Hf'; [|done]. intros [= <-]. eapply minv_at; eauto; try done.
        -- intros [W1 W2 W3]. split; unfold at_set_inv; cbn [at_inv at_fns at_tasks].
           ++ intros k' i' Hi'. apply lookup_app_Some in Hi' as [Hi'|[_ Hi']].
              ** destruct (W1 k' i' Hi') as (f&?&?). exists f. split; [done|]. by apply sublist_inserts_r.
              ** apply list_lookup_singleton_Some in Hi' as [_ <-]. exists f'. split; [done|]. destruct (W1 k i Hk) as (f&Hf&Hsub).
                 rewrite (take_S_r _ _ _ Hf), passing_app, take_length, Nat.min_l by (apply lookup_lt_Some in Hf; lia). simpl.
                 rewrite <- app_assoc. simpl. change [CInv a i f; CNext a i None; CInv a (S i) f'] with ([CInv a i f] ++ [CNext a i None; CInv a (S i) f']).
                 rewrite app_assoc. by apply sublist_app.
           ++ intros H. apply sublist_inserts_r; auto.
           ++ intros H. apply sublist_inserts_r; auto.
        -- intros b Hb. rewrite !elem_of_cons, elem_of_nil in Hb. naive_solver.
  - destruct (m_att s !! a) as [x|] eqn:Hx; [|done]. destruct (at_tasks x !! j) as [t|] eqn:Hj; [|done].
    destruct (mtask md a x t s) as [[t' evs]|] eqn:Ht; [|done]. intros [= <-].
    assert (t ∈ at_tasks x) as Hin by (by eapply elem_of_list_lookup_2).
    assert (t' ≠ TStart None ∧ (t' = TGo → t = TStart None ∧ evs = []) ∧ (∀ b, CGo b ∈ evs → b = a ∧ evs = [CGo a] ∧ t = TGo) ∧ (t = TGo ∨ t = TDone → t' = TDone)) as (T1&T2&T3&T4).
    { unfold mtask in Ht. destruct md, t as [[e|]|e| |]; try done.
      all: try (destruct (negb (bool_decide (at_gate x ∈ m_closed s)))); injection Ht as <- <-; split_and!; try done; try (by intros []).
      all: intros b Hb; rewrite ?elem_of_cons, elem_of_nil in Hb; naive_solver. }
    eapply minv_at; eauto; try done.
    + intros (E1&E2&t0&E3&E4). split; [done|]. split; [done|]. unfold at_set_tasks. cbn [at_tasks]. rewrite E3 in Hj |- *.
      apply list_lookup_singleton_Some in Hj as [-> ->]. exists t'. split; [done|]. right. by apply T4.
    + intros [W1 W2 W3]. split; unfold at_set_tasks; cbn [at_inv at_fns at_tasks].
      * intros k' i' Hi'. destruct (W1 k' i' Hi') as (f&?&?). exists f. split; [done|]. by apply sublist_inserts_r.
      * intros (j'&H)%elem_of_list_lookup. apply list_lookup_insert_Some in H as [(_&H&_)|[_ H]]; [done|].
        apply sublist_inserts_r, W2. by eapply elem_of_list_lookup_2.
      * intros (j'&H)%elem_of_list_lookup. apply list_lookup_insert_Some in H as [(_&H&_)|[_ H]].
        -- destruct (T2 H) as [-> _]. apply sublist_inserts_r, W2. by eapply elem_of_list_lookup_2.
        -- apply sublist_inserts_r, W3. by eapply elem_of_list_lookup_2.
    + intros b Hb. destruct (T3 b Hb) as (->&->&->). auto.
  - intros [= <-]. split; cbn [m_fns m_closed m_att m_log].
    + rewrite uses_app. simpl. rewrite app_nil_r. apply Hi.
    + rewrite attempts_snoc, app_nil_r. apply Hi.
    + intros a x Hx. rewrite <- (app_nil_r (m_log s)). apply attok_mono. by apply (mi_att _ _ _ Hi).
    + intros a Ha. rewrite <- (app_nil_r (m_log s)). apply gook_mono. by apply (mi_go _ _ _ Hi).
    + intros h. rewrite mclosed_snoc, elem_of_union, elem_of_singleton, (mi_closed _ _ _ Hi). naive_solver.
Qed.
Lemma minv_all md ls s : mexec md ls mst0 = Some s → minv md ls s.
Proof.
  apply (mexec_ind md (minv md)).
  - split; try done.
    + intros a Ha. by apply elem_of_nil in Ha.
    + intros g. simpl. rewrite elem_of_empty, elem_of_nil. done.
  - intros. by eapply minv_step.
Qed.

(** ** One answer per middleware *)
Lemma conv_snoc a f fs : ∀ i m e, fs !! m = Some f →
  conversation a i fs (replicate m None ++ [e]) = conversation a i fs (replicate m None) ++
    CNext a (i + m) e :: match e, fs !! S m with None, Some f' => [CInv a (S (i + m)) f'] | _, _ => [] end.
Proof.
  induction fs as [|g fs IH]; intros i m e Hm; [done|]. destruct m as [|m]; simpl.
  - rewrite Nat.add_0_r. destruct e as [e|]; [done|]. destruct fs as [|f' fs]; done.
  - simpl in Hm. rewrite (IH (S i) m e Hm). simpl. by rewrite <- plus_n_Sm.
Qed.
Lemma verdict_wait fs : ∀ m, m < length fs → verdict_of fs (replicate m None) = VWait.
Proof. induction fs as [|f fs IH]; intros m Hm; simpl in *; [lia|]. destruct m; simpl; [done|]. apply IH. lia. Qed.
Lemma verdict_fail fs e : ∀ m, m < length fs → verdict_of fs (replicate m None ++ [Some e]) = VFail e.
Proof. induction fs as [|f fs IH]; intros m Hm; simpl in *; [lia|]. destruct m; simpl; [done|]. apply IH. lia. Qed.
Lemma verdict_pass fs : verdict_of fs (replicate (length fs) None) = VPass.
Proof. by induction fs as [|f fs IH]. Qed.
Lemma replicate_snoc {A} n (x : A) : replicate n x ++ [x] = replicate (S n) x.
Proof. by rewrite <- replicate_cons_app. Qed.

Definition final (md : mode) (ls : list mlabel) (a g : nat) (p3 : bool) (r : option merr) (out : list mev) : Prop :=
  match md, r with
  | NsMode, None => out = [CGo a] ∨ (out = [CClean a] ∧ MClose g ∈ ls)
  | NsMode, Some e => out = [CClean a; CErrPkt a (err_payload p3 e)] ∨ (out = [CClean a] ∧ MClose g ∈ ls)
  | EvMode, None => out = [CGo a] ∨ (out = [CDrop a] ∧ MClose g ∈ ls)
  | EvMode, Some e => out = [CErrEv a e]
  end.
Definition tstate (md : mode) (ls : list mlabel) (a g : nat) (p3 : bool) (r : option merr) (t : tpc) (out : list mev) : Prop :=
  match t with
  | TStart r' => r' = r ∧ out = []
  | TRefuse e => md = NsMode ∧ r = Some e ∧ out = [CClean a]
  | TGo => r = None ∧ out = []
  | TDone => final md ls a g p3 r out
  end.
Definition to_verdict (r : option merr) : verdict := match r with None => VPass | Some e => VFail e end.
Definition phase (md : mode) (ls : list mlabel) (s : mst) (a : nat) (x : att) : Prop :=
  let m := length (answers ls a) in
  (at_inv x = seq 0 (S m) ∧ m < length (at_fns x) ∧ answers ls a = replicate m None ∧ at_tasks x = [] ∧ outcome a (m_log s) = []) ∨
  (at_inv x = seq 0 m ∧ ∃ r t, at_tasks x = [t] ∧ verdict_of (at_fns x) (answers ls a) = to_verdict r ∧
     tstate md ls a (at_gate x) (at_p3 x) r t (outcome a (m_log s))).
Definition may_skip (md : mode) (ls : list mlabel) (a : nat) : Prop := md = NsMode ∧ ∃ g p3 us, attempts [] ls !! a = Some (g, true, p3, us).
Record disc (md : mode) (ls : list mlabel) (s : mst) (a : nat) : Prop := {
  dc_none : m_att s !! a = None → answers ls a = [] ∧ answerers ls a = [] ∧ mw_part a (m_log s) = [] ∧ outcome a (m_log s) = [];
  dc_some : ∀ x, m_att s !! a = Some x → may_skip md ls a ∨
     (answerers ls a = seq 0 (length (answers ls a)) ∧ mw_part a (m_log s) = conversation a 0 (at_fns x) (answers ls a) ∧ phase md ls s a x) }.

Lemma mw_part_app a l1 l2 : mw_part a (l1 ++ l2) = mw_part a l1 ++ mw_part a l2.
Proof. apply filter_app. Qed.
Lemma outcome_app a l1 l2 : outcome a (l1 ++ l2) = outcome a l1 ++ outcome a l2.
Proof. apply filter_app. Qed.
Lemma final_mono md ls l a g p3 r out : final md ls a g p3 r out → final md (ls ++ [l]) a g p3 r out.
Proof. unfold final. destruct md, r; try done; rewrite elem_of_app; naive_solver. Qed.
Lemma tstate_mono md ls l a g p3 r t out : tstate md ls a g p3 r t out → tstate md (ls ++ [l]) a g p3 r t out.
Proof. destruct t; try done. apply final_mono. Qed.

Lemma may_skip_mono md ls l a : may_skip md ls a → may_skip md (ls ++ [l]) a.
Proof. intros (->&g&p3&us&H). split; [done|]. exists g, p3, us. by apply att_lookup_mono. Qed.
(** Steps that do not concern attempt [a]. *)
Lemma disc_frame md ls l s s' a evs : disc md ls s a → m_att s' !! a = m_att s !! a → m_log s' = m_log s ++ evs →
  answers [l] a = [] → answerers [l] a = [] → mw_part a evs = [] → outcome a evs = [] → disc md (ls ++ [l]) s' a.
Proof.
  intros [D1 D2] Ha Hl E1 E2 E3 E4. split.
  - rewrite Ha, Hl, answers_app, answerers_app, mw_part_app, outcome_app, E1, E2, E3, E4, !app_nil_r. done.
  - intros x. rewrite Ha. intros Hx. destruct (D2 x Hx) as [?|(A1&A2&A3)]; [left; by apply may_skip_mono|right].
    rewrite answers_app, answerers_app, E1, E2, !app_nil_r. split; [done|]. split; [by rewrite Hl, mw_part_app, E3, app_nil_r|].
    unfold phase in *. rewrite answers_app, E1, !app_nil_r, Hl, outcome_app, E4, app_nil_r.
    destruct A3 as [?|(B1&r&t&B2&B3&B4)]; [by left|right]. split; [done|]. exists r, t. split; [done|]. split; [done|]. by apply tstate_mono.
Qed.

Ltac evs_other := repeat (rewrite filter_cons); simpl; repeat rewrite bool_decide_eq_false_2 by congruence; simpl; try done.
Lemma mtask_other md b x t s t' evs a : mtask md b x t s = Some (t', evs) → a ≠ b → mw_part a evs = [] ∧ outcome a evs = [].
Proof.
  unfold mtask, mw_part, outcome. intros H Hne.
  destruct md, t as [[e|]|e| |]; try done; try (destruct (negb (bool_decide (at_gate x ∈ m_closed s)))); injection H as <- <-.
  all: split; simpl; try done; repeat (rewrite filter_cons; simpl; rewrite ?bool_decide_eq_false_2 by congruence; simpl); done.
Qed.
Lemma mtask_mw md b x t s t' evs a : mtask md b x t s = Some (t', evs) → mw_part a evs = [].
Proof.
  unfold mtask, mw_part. intros H.
  destruct md, t as [[e|]|e| |]; try done; try (destruct (negb (bool_decide (at_gate x ∈ m_closed s)))); injection H as <- <-; done.
Qed.
Lemma mw_self a i e : mw_part a [CNext a i e] = [CNext a i e].
Proof. unfold mw_part. rewrite filter_cons. simpl. by rewrite bool_decide_eq_true_2. Qed.
Lemma mw_self2 a i e j f : mw_part a [CNext a i e; CInv a j f] = [CNext a i e; CInv a j f].
Proof. unfold mw_part. rewrite !filter_cons. simpl. by rewrite bool_decide_eq_true_2. Qed.
Lemma mw_inv a i f : mw_part a [CInv a i f] = [CInv a i f].
Proof. unfold mw_part. rewrite !filter_cons. simpl. by rewrite bool_decide_eq_true_2. Qed.
Lemma mw_next_other a b i e : a ≠ b → mw_part a [CNext b i e] = [].
Proof. intros. unfold mw_part. rewrite filter_cons. simpl. by rewrite bool_decide_eq_false_2. Qed.
Lemma mw_inv_other a b i f : a ≠ b → mw_part a [CInv b i f] = [].
Proof. intros. unfold mw_part. rewrite filter_cons. simpl. by rewrite bool_decide_eq_false_2. Qed.

Lemma disc_next md ls s s' a k err : disc md ls s a → NoDup (answerers (ls ++ [MNext a k err]) a) →
  mnext a k err s = Some s' → disc md (ls ++ [MNext a k err]) s' a.
Proof.
  intros [D1 D2] Hnd. unfold mnext. destruct (m_att s !! a) as [x|] eqn:Hx; [|done]. destruct (at_inv x !! k) as [i|] eqn:Hk; [|done]. intros Hs.
  assert (answers (ls ++ [MNext a k err]) a = answers ls a ++ [err]) as Ea. { rewrite answers_app. simpl. by rewrite decide_True. }
  assert (answerers (ls ++ [MNext a k err]) a = answerers ls a ++ [k]) as Er. { rewrite answerers_app. simpl. by rewrite decide_True. }
  pose proof (lookup_lt_Some _ _ _ Hx) as Hlt.
  assert (m_att s' !! a ≠ None) as HN.
  { intros HN. apply lookup_ge_None in HN. destruct err as [e|]; [|destruct (Nat.leb _ _); [|destruct (at_fns x !! S i); [|done]]]; injection Hs as <-; cbn [m_att] in HN; rewrite insert_length in HN; lia. }
  split; [intros H; by destruct HN|].
  destruct (D2 x eq_refl) as [Hm|(A1&A2&A3)]; [intros; left; by apply may_skip_mono|].
  rewrite Er, A1 in Hnd. apply NoDup_app in Hnd as (_&Hnd&_).
  assert (k ∉ seq 0 (length (answers ls a))) as Hfresh. { intros Hin. by apply (Hnd k Hin), elem_of_list_singleton. }
  destruct A3 as [(B1&B2&B3&B4&B5)|(B1&_)]; [|exfalso; rewrite B1 in Hk; apply lookup_seq in Hk as [_ Hk]; apply Hfresh, elem_of_seq; lia].
  rewrite B1 in Hk. apply lookup_seq in Hk as [-> Hk]. simpl in *.
  assert (k = length (answers ls a)) as Ek. { destruct (decide (k = length (answers ls a))); [done|]. exfalso. apply Hfresh, elem_of_seq. lia. }
  set (m := length (answers ls a)) in *. destruct (lookup_lt_is_Some_2 _ _ B2) as [f Hf].
  intros y Hy. right. rewrite Er, Ea, app_length, A1. fold m. rewrite Ek in *.
  split; [by rewrite seq_app|]. unfold phase. rewrite Ea, app_length. fold m. simpl. rewrite Nat.add_1_r.
  destruct err as [e|]; [|destruct (Nat.leb_spec (length (at_fns x) - 1) m) as [El|El]].
  - injection Hs as <-. cbn [m_att m_log] in *. rewrite list_lookup_insert in Hy by done. injection Hy as <-. unfold at_set_tasks. cbn [at_inv at_fns at_tasks at_gate at_p3].
    split.
    + rewrite mw_part_app, mw_self, A2, B3, (conv_snoc a f) by done. by rewrite Nat.add_0_l.
    + right. split; [done|]. exists (Some e), (TStart (Some e)). rewrite B4. split; [done|]. split; [rewrite B3; by apply verdict_fail|].
      split; [done|]. rewrite outcome_app, B5. done.
  - injection Hs as <-. cbn [m_att m_log] in *. rewrite list_lookup_insert in Hy by done. injection Hy as <-. unfold at_set_tasks. cbn [at_inv at_fns at_tasks at_gate at_p3].
    split.
    + rewrite mw_part_app, mw_self, A2, B3, (conv_snoc a f) by done. rewrite Nat.add_0_l. rewrite (lookup_ge_None_2 (at_fns x) (S m)) by lia. done.
    + right. split; [done|]. exists None, (TStart None). rewrite B4. split; [done|]. split.
      { rewrite B3, replicate_snoc. replace (S m) with (length (at_fns x)) by lia. apply verdict_pass. }
      split; [done|]. rewrite outcome_app, B5. done.
  - destruct (at_fns x !! S m) as [f'|] eqn:Hf'; [|done]. injection Hs as <-. cbn [m_att m_log] in *. rewrite list_lookup_insert in Hy by done. injection Hy as <-.
    unfold at_set_inv. cbn [at_inv at_fns at_tasks at_gate at_p3]. split.
    + rewrite mw_part_app, mw_self2, A2, B3, (conv_snoc a f) by done. rewrite Nat.add_0_l, Hf'. done.
    + left. split; [rewrite B1; exact (eq_sym (seq_S (S m) 0))|]. split; [lia|]. split; [by rewrite B3 at 1; rewrite replicate_snoc|].
      split; [done|]. rewrite outcome_app, B5. done.
Qed.

Lemma disc_start md ls g sk p3 s a : minv md ls s → disc md ls s a → disc md (ls ++ [MStart g sk p3]) (mstart md g sk p3 s) a.
Proof.
  intros Hi D. destruct (decide (a = length (m_att s))) as [->|Hne].
  - assert (m_att s !! length (m_att s) = None) as HN by (by apply lookup_ge_None_2).
    destruct (dc_none _ _ _ _ D HN) as (N1&N2&N3&N4).
    assert (∀ x evs, let s' := MSt (m_fns s) (m_closed s) (m_att s ++ [x]) (m_log s ++ evs) in
       (may_skip md (ls ++ [MStart g sk p3]) (length (m_att s)) ∨ (mw_part (length (m_att s)) evs = conversation (length (m_att s)) 0 (at_fns x) [] ∧ outcome (length (m_att s)) evs = [] ∧
         ((at_inv x = [0] ∧ 0 < length (at_fns x) ∧ at_tasks x = []) ∨ (at_inv x = [] ∧ at_fns x = [] ∧ at_tasks x = [TStart None])))) →
       disc md (ls ++ [MStart g sk p3]) s' (length (m_att s))) as Hgen.
    { intros x evs s' Hx. split.
      - simpl. intros H. rewrite lookup_app_r, Nat.sub_diag in H by done. done.
      - simpl. intros y Hy. rewrite lookup_app_r, Nat.sub_diag in Hy by done. injection Hy as <-.
        destruct Hx as [?|(E1&E2&E3)]; [by left|right]. rewrite answers_app, answerers_app, N1, N2. simpl. split; [done|].
        rewrite mw_part_app, N3, E1. split; [done|]. unfold phase. rewrite answers_app, N1. simpl. rewrite outcome_app, N4, E2.
        destruct E3 as [(?&?&?)|(?&F2&F3)]; [left; done|right]. split; [done|]. exists None, (TStart None). rewrite F2. done. }
    unfold mstart. destruct (mrun0 (length (m_att s)) g p3 (m_fns s)) as [x evs] eqn:E0.
    assert (mw_part (length (m_att s)) evs = conversation (length (m_att s)) 0 (at_fns x) [] ∧ outcome (length (m_att s)) evs = [] ∧
         ((at_inv x = [0] ∧ 0 < length (at_fns x) ∧ at_tasks x = []) ∨ (at_inv x = [] ∧ at_fns x = [] ∧ at_tasks x = [TStart None]))) as Hx.
    { unfold mrun0 in E0. destruct (m_fns s) as [|f fs]; injection E0 as <- <-; cbn [at_inv at_fns at_tasks].
      - split; [done|]. split; [done|]. by right.
      - split; [apply mw_inv|]. split; [done|]. left. split; [done|]. split; [simpl; lia|done]. }
    destruct md.
    + destruct (sk && negb (bool_decide (g ∈ m_closed s))) eqn:E.
      * rewrite <- (app_nil_r (m_log s)) at 1. apply Hgen. left. apply andb_true_iff in E as [-> _]. split; [done|]. exists g, p3, (uses ls).
        rewrite attempts_snoc, (mi_len _ _ _ Hi). by rewrite lookup_app_r, Nat.sub_diag by lia.
      * apply Hgen. by right.
    + apply Hgen. right. destruct Hx as (X1&X2&X3). split; [|split]; [..|done].
      * change (CAny (length (m_att s)) :: evs) with ([CAny (length (m_att s))] ++ evs). by rewrite mw_part_app, X1.
      * change (CAny (length (m_att s)) :: evs) with ([CAny (length (m_att s))] ++ evs). by rewrite outcome_app, X2.
  - assert (∀ x evs, (evs = [] ∨ evs = [CAny (length (m_att s))] ∨ (∃ f, evs = [CInv (length (m_att s)) 0 f] ∨ evs = [CAny (length (m_att s)); CInv (length (m_att s)) 0 f])) →
       disc md (ls ++ [MStart g sk p3]) (MSt (m_fns s) (m_closed s) (m_att s ++ [x]) (m_log s ++ evs)) a) as Hgen.
    { intros x evs Hevs. eapply disc_frame; [done|..|done|done|done| |]; cbn [m_att m_log].
      - destruct (decide (a < length (m_att s))); [by rewrite lookup_app_l|]. rewrite !lookup_ge_None_2; [done|lia|]. rewrite app_length. simpl. lia.
      - destruct Hevs as [->|[->|(f&[->| ->])]]; try done; [by apply mw_inv_other|]. change (mw_part a ([CAny (length (m_att s))] ++ [CInv (length (m_att s)) 0 f]) = []).
        rewrite mw_part_app, mw_inv_other by done. done.
      - destruct Hevs as [->|[->|(f&[->| ->])]]; done. }
    unfold mstart, mrun0. destruct md, (m_fns s) as [|f fs] eqn:Ef.
    + destruct (sk && _); [rewrite <- (app_nil_r (m_log s)) at 1|]; apply Hgen; auto.
    + destruct (sk && _); [rewrite <- (app_nil_r (m_log s)) at 1|]; apply Hgen; eauto.
    + apply Hgen. auto.
    + apply Hgen. eauto 8.
Qed.

Lemma disc_task md ls s a j x t t' evs : minv md ls s → disc md ls s a → m_att s !! a = Some x → at_tasks x !! j = Some t →
  mtask md a x t s = Some (t', evs) →
  disc md (ls ++ [MTask a j]) (MSt (m_fns s) (m_closed s) (<[a := at_set_tasks (<[j := t']> (at_tasks x)) x]> (m_att s)) (m_log s ++ evs)) a.
Proof.
  intros Hi [D1 D2] Hx Hj Ht. pose proof (lookup_lt_Some _ _ _ Hx) as Hlt. split; cbn [m_att m_log].
  { rewrite list_lookup_insert by done. done. }
  intros y Hy. rewrite list_lookup_insert in Hy by done. injection Hy as <-.
  destruct (D2 x Hx) as [Hm|(A1&A2&A3)].
  - left. by apply may_skip_mono.
  - right. rewrite answers_app, answerers_app. simpl. rewrite !app_nil_r, mw_part_app, (mtask_mw _ _ _ _ _ _ _ _ Ht), app_nil_r.
    split; [done|]. split; [done|]. unfold phase in *. rewrite answers_app. simpl. rewrite app_nil_r. cbn [m_log].
    destruct A3 as [(_&_&_&B4&_)|(B1&r&t0&B2&B3&B4)]; [by rewrite B4 in Hj|right]. split; [done|].
    rewrite B2 in Hj. apply list_lookup_singleton_Some in Hj as [-> ->]. exists r, t'. unfold at_set_tasks. cbn [at_tasks at_fns at_gate at_p3].
    split; [by rewrite B2|]. split; [done|]. rewrite outcome_app.
    assert (∀ e : mev, is_outcome a e = true → outcome a [e] = [e]) as Hone.
    { intros e He. unfold outcome. rewrite filter_cons, decide_True by (by rewrite He). done. }
    assert (is_outcome a (CClean a) = true ∧ is_outcome a (CGo a) = true ∧ is_outcome a (CDrop a) = true ∧ (∀ v, is_outcome a (CErrPkt a v) = true) ∧ (∀ v, is_outcome a (CErrEv a v) = true)) as (O1&O2&O3&O4&O5).
    { simpl. rewrite bool_decide_eq_true_2 by done. done. }
    assert (bool_decide (at_gate x ∈ m_closed s) = true → ∀ l, MClose (at_gate x) ∈ ls ++ [l]) as Hcl.
    { intros H l. apply bool_decide_eq_true_1 in H. apply (mi_closed _ _ _ Hi) in H. apply elem_of_app. by left. }
    unfold mtask in Ht. destruct md, t as [[e|]|e| |]; try done.
    + destruct B4 as [<- B4]. rewrite B4. destruct (bool_decide (at_gate x ∈ m_closed s)) eqn:Eo; injection Ht as <- <-; simpl; rewrite (Hone _ O1); auto.
    + destruct B4 as [<- B4]. rewrite B4. destruct (bool_decide (at_gate x ∈ m_closed s)) eqn:Eo; injection Ht as <- <-; simpl; rewrite ?(Hone _ O1); auto.
    + destruct B4 as (_&->&B4). rewrite B4. destruct (bool_decide (at_gate x ∈ m_closed s)) eqn:Eo; injection Ht as <- <-; simpl; rewrite ?(Hone _ (O4 _)); auto.
    + destruct B4 as (->&B4). rewrite B4. injection Ht as <- <-. simpl. rewrite (Hone _ O2). auto.
    + destruct B4 as [<- B4]. rewrite B4. injection Ht as <- <-; simpl; rewrite (Hone _ (O5 _)); auto.
    + destruct B4 as [<- B4]. rewrite B4. destruct (bool_decide (at_gate x ∈ m_closed s)) eqn:Eo; injection Ht as <- <-; simpl; rewrite ?(Hone _ O3); auto.
    + destruct B4 as (->&B4). rewrite B4. injection Ht as <- <-. simpl. rewrite (Hone _ O2). auto.
Qed.

Lemma disc_step md ls l s s' a : minv md ls s → disc md ls s a → NoDup (answerers (ls ++ [l]) a) → mstep md l s = Some s' → disc md (ls ++ [l]) s' a.
Proof.
  intros Hi D Hnd. destruct l as [f|g sk p3|b k err|b j|g]; cbn [mstep].
  - intros [= <-]. apply (disc_frame md ls _ s _ a []); try done. simpl. by rewrite app_nil_r.
  - intros [= <-]. by apply disc_start.
  - intros Hs. destruct (decide (a = b)) as [->|Hne]; [by eapply disc_next|].
    assert (answers [MNext b k err] a = [] ∧ answerers [MNext b k err] a = []) as [N1 N2]. { simpl. by rewrite !decide_False. }
    unfold mnext in Hs. destruct (m_att s !! b) as [x|] eqn:Hx; [|done]. destruct (at_inv x !! k) as [i|] eqn:Hk; [|done].
    destruct err as [e|]; [|destruct (Nat.leb _ _); [|destruct (at_fns x !! S i) as [f|]; [|done]]]; injection Hs as <-.
    1,2: eapply disc_frame; [done| |done|done|done| |done]; cbn [m_att]; [by rewrite list_lookup_insert_ne|by apply mw_next_other].
    eapply disc_frame; [done| |done|done|done| |done]; cbn [m_att]; [by rewrite list_lookup_insert_ne|].
    change (mw_part a ([CNext b i None] ++ [CInv b (S i) f]) = []). by rewrite mw_part_app, mw_next_other, mw_inv_other.
  - destruct (m_att s !! b) as [x|] eqn:Hx; [|done]. destruct (at_tasks x !! j) as [t|] eqn:Hj; [|done].
    destruct (mtask md b x t s) as [[t' evs]|] eqn:Ht; [|done]. intros [= <-]. destruct (decide (a = b)) as [->|Hne]; [by eapply disc_task|].
    destruct (mtask_other _ _ _ _ _ _ _ a Ht Hne) as [M1 M2].
    eapply disc_frame; [done| |done|done|done|done|done]; cbn [m_att]. by rewrite list_lookup_insert_ne.
  - intros [= <-]. apply (disc_frame md ls _ s _ a []); try done. simpl. by rewrite app_nil_r.
Qed.
Lemma disc_all md a ls s : mexec md ls mst0 = Some s → one_answer ls a → disc md ls s a.
Proof.
  apply (mexec_ind md (λ ls s, one_answer ls a → disc md ls s a)).
  - intros _. split; [done|]. intros x. simpl. by rewrite lookup_nil.
  - intros ls' l s1 s2 H IH Hs Hn. eapply disc_step; [by apply minv_all|apply IH|done|done].
    unfold one_answer in *. rewrite answerers_app in Hn. by apply NoDup_app in Hn as [? _].
Qed.

(** ** Final statements *)
Lemma gate_all md ls s a : mexec md ls mst0 = Some s → CGo a ∈ m_log s →
  ∃ g sk p3 us, attempts [] ls !! a = Some (g, sk, p3, us) ∧
    ((md = NsMode ∧ sk = true) ∨ passing a 0 us ++ [CGo a] `sublist_of` m_log s).
Proof. intros H Ha. by apply (mi_go _ _ _ (minv_all _ _ _ H)). Qed.

Lemma one_answer_all md ls s a g sk p3 us : mexec md ls mst0 = Some s → one_answer ls a → attempts [] ls !! a = Some (g, sk, p3, us) →
  (md = NsMode → sk = false) →
  mw_part a (m_log s) = conversation a 0 us (answers ls a) ∧
  (∃ x, m_att s !! a = Some x) ∧
  match verdict_of us (answers ls a) with
  | VWait => outcome a (m_log s) = []
  | VPass => (outcome a (m_log s) = [] ∧ ¬ settled s a) ∨ final md ls a g p3 None (outcome a (m_log s))
  | VFail e => ((outcome a (m_log s) = [] ∨ md = NsMode ∧ outcome a (m_log s) = [CClean a]) ∧ ¬ settled s a) ∨ final md ls a g p3 (Some e) (outcome a (m_log s))
  end.
Proof.
  intros H Hone Ha Hsk. pose proof (minv_all _ _ _ H) as Hi. pose proof (disc_all _ _ _ _ H Hone) as D.
  destruct (m_att s !! a) as [x|] eqn:Hx.
  2: { apply lookup_ge_None in Hx. rewrite (mi_len _ _ _ Hi) in Hx. apply lookup_lt_Some in Ha. lia. }
  destruct (mi_att _ _ _ Hi a x Hx) as (g'&sk'&p3'&us'&H1&H2&H3&H4). rewrite Ha in H1. injection H1 as <- <- <- <-.
  destruct H4 as [(E1&E2&_)|[Hf Hw]]; [rewrite (Hsk E1) in E2; done|].
  destruct (dc_some _ _ _ _ D x Hx) as [(E1&?&?&?&E2)|(A1&A2&A3)].
  - rewrite Ha in E2. rewrite (Hsk E1) in E2. done.
  - rewrite <- Hf in *. split; [done|]. split; [by eauto|].
    destruct A3 as [(B1&B2&B3&B4&B5)|(B1&r&t&B2&B3&B4)].
    + rewrite B3, verdict_wait by done. done.
    + rewrite B3. rewrite <- H2, <- H3.
      assert (t ≠ TDone → ¬ settled s a) as Hns. { intros Ht (y&Hy&HD). rewrite Hx in Hy. injection Hy as <-. apply Ht, HD. rewrite B2. by left. }
      destruct r as [e|]; simpl; destruct t as [r'|e'| |]; simpl in B4.
      * left. split; [left; apply B4|]. by apply Hns.
      * left. split; [right; naive_solver|]. by apply Hns.
      * by destruct B4.
      * by right.
      * left. split; [apply B4|]. by apply Hns.
      * naive_solver.
      * left. split; [apply B4|]. by apply Hns.
      * by right.
Qed.

(** An attempt that starts after its gate closed never gets through. *)
Record shut (a g : nat) (s : mst) : Prop := {
  sh_closed : g ∈ m_closed s;
  sh_tasks : ∀ x, m_att s !! a = Some x → at_gate x = g → TGo ∉ at_tasks x;
  sh_log : m_att s !! a = None ∨ (∃ x, m_att s !! a = Some x ∧ at_gate x = g) → CGo a ∉ m_log s }.
Lemma shut_step md ls l s s' a g : minv md ls s → shut a g s → mstep md l s = Some s' → shut a g s'.
Proof.
  intros Hi [S1 S2 S3]. destruct l as [f|h sk p3|b k err|b j|h]; cbn [mstep].
  - intros [= <-]. by split.
  - intros [= <-].
    assert (∀ x evs, at_gate x = h → (h = g → TGo ∉ at_tasks x) → (∀ b, CGo b ∉ evs) → shut a g (MSt (m_fns s) (m_closed s) (m_att s ++ [x]) (m_log s ++ evs))) as Hgen.
    { intros x evs Hh Hx He. split; cbn [m_closed m_att m_log]; [done|..].
      - intros y Hy Hg. apply lookup_app_Some in Hy as [Hy|[Hlen Hy]]; [by apply S2|].
        apply list_lookup_singleton_Some in Hy as [_ <-]. apply Hx. congruence.
      - intros Hy [H|H]%elem_of_app; [|by destruct (He a)]. revert H. apply S3.
        destruct (m_att s !! a) as [y|] eqn:E; [|by left]. right. destruct Hy as [Hy|(z&Hz&Hg)].
        + by rewrite (lookup_app_l_Some _ _ _ _ E) in Hy.
        + rewrite (lookup_app_l_Some _ _ _ _ E) in Hz. naive_solver. }
    unfold mstart. destruct (mrun0 (length (m_att s)) h p3 (m_fns s)) as [x evs] eqn:E0.
    destruct (walked_run0 _ _ _ _ _ _ E0) as (H1&H2&H3&H4&H5).
    assert (TGo ∉ at_tasks x) as Hx.
    { unfold mrun0 in E0. destruct (m_fns s); injection E0 as <- <-; simpl; rewrite ?elem_of_list_singleton, ?elem_of_nil; naive_solver. }
    destruct md.
    + destruct (sk && negb (bool_decide (h ∈ m_closed s))) eqn:E.
      * apply andb_true_iff in E as [-> E]. apply negb_true_iff, bool_decide_eq_false_1 in E. rewrite <- (app_nil_r (m_log s)) at 1.
        apply Hgen; [done|intros ->; done|]. intros b Hb. by apply elem_of_nil in Hb.
      * by apply Hgen.
    + apply Hgen; [done..|]. intros b [Hb|Hb]%elem_of_cons; [done|by destruct (H4 b)].
  - unfold mnext. destruct (m_att s !! b) as [x|] eqn:Hx; [|done]. destruct (at_inv x !! k) as [i|] eqn:Hk; [|done]. intros Hs.
    assert (∃ y evs, s' = MSt (m_fns s) (m_closed s) (<[b := y]> (m_att s)) (m_log s ++ evs) ∧ at_gate y = at_gate x ∧ (TGo ∈ at_tasks y → TGo ∈ at_tasks x) ∧ (∀ c, CGo c ∉ evs)) as (y&evs&->&Hg&Ht&He).
    { destruct err as [e|]; [|destruct (Nat.leb _ _); [|destruct (at_fns x !! S i) as [f|]; [|done]]]; injection Hs as <-; eexists _, _; split_and!; try done.
      all: unfold at_set_tasks; cbn [at_tasks]; try (rewrite elem_of_app, elem_of_list_singleton; naive_solver).
      all: intros c Hc; rewrite ?elem_of_cons, elem_of_nil in Hc; naive_solver. }
    split; cbn [m_closed m_att m_log]; [done|..].
    + intros z Hz Hgz. apply list_lookup_insert_Some in Hz as [(<-&<-&_)|[_ Hz]]; [|by apply S2]. intros Hin. apply (S2 x); [done|congruence|auto].
    + intros Hy [H|H]%elem_of_app; [|by destruct (He a)]. revert H. apply S3. destruct (decide (a = b)) as [->|Hne].
      * right. exists x. split; [done|]. destruct Hy as [Hy|(z&Hz&Hgz)]; [apply lookup_ge_None in Hy; rewrite insert_length in Hy; apply lookup_lt_Some in Hx; lia|].
        apply list_lookup_insert_Some in Hz as [(_&<-&_)|[? _]]; [congruence|done].
      * by rewrite list_lookup_insert_ne in Hy by done.
  - destruct (m_att s !! b) as [x|] eqn:Hx; [|done]. destruct (at_tasks x !! j) as [t|] eqn:Hj; [|done].
    destruct (mtask md b x t s) as [[t' evs]|] eqn:Ht; [|done]. intros [= <-].
    assert (t ∈ at_tasks x) as Hin by (by eapply elem_of_list_lookup_2).
    assert ((t' = TGo → at_gate x ∉ m_closed s) ∧ (∀ c, CGo c ∈ evs → c = b ∧ t = TGo)) as [T1 T2].
    { unfold mtask in Ht. destruct md, t as [[e|]|e| |]; try done.
      all: try (destruct (bool_decide (at_gate x ∈ m_closed s)) eqn:E; [apply bool_decide_eq_true_1 in E|apply bool_decide_eq_false_1 in E]); injection Ht as <- <-; split; try done.
      all: intros c Hc; rewrite ?elem_of_cons, elem_of_nil in Hc; naive_solver. }
    split; cbn [m_closed m_att m_log]; [done|..].
    + intros z Hz Hgz. apply list_lookup_insert_Some in Hz as [(<-&<-&_)|[_ Hz]]; [|by apply S2]. unfold at_set_tasks in *. cbn [at_tasks at_gate] in *.
      intros (j'&H)%elem_of_list_lookup. apply list_lookup_insert_Some in H as [(_&H&_)|[_ H]].
      * apply (T1 H). by rewrite Hgz.
      * apply (S2 x); [done|done|]. by eapply elem_of_list_lookup_2.
    + intros Hy [H|H]%elem_of_app.
      * revert H. apply S3. destruct (decide (a = b)) as [->|Hne].
        -- right. exists x. split; [done|]. destruct Hy as [Hy|(z&Hz&Hgz)]; [apply lookup_ge_None in Hy; rewrite insert_length in Hy; apply lookup_lt_Some in Hx; lia|].
           apply list_lookup_insert_Some in Hz as [(_&<-&_)|[? _]]; [done|done].
        -- by rewrite list_lookup_insert_ne in Hy by done.
      * destruct (T2 a H) as [-> ->]. destruct Hy as [Hy|(z&Hz&Hgz)]; [apply lookup_ge_None in Hy; rewrite insert_length in Hy; apply lookup_lt_Some in Hx; lia|].
        apply list_lookup_insert_Some in Hz as [(_&<-&_)|[? _]]; [|done]. by apply (S2 x).
  - intros [= <-]. split; cbn [m_closed m_att m_log]; [set_solver +S1|done..].
Qed.
Lemma shut_exec md ls2 : ∀ ls1 s1 s a g, mexec md ls1 mst0 = Some s1 → shut a g s1 → mexec md ls2 s1 = Some s → shut a g s.
Proof.
  induction ls2 as [|l ls2 IH]; intros ls1 s1 s a g H1 Hs; cbn [mexec]; [by intros [= <-]|].
  destruct (mstep md l s1) as [s2|] eqn:E; [|done]. intros H2. eapply (IH (ls1 ++ [l])); [|by eapply shut_step; [apply minv_all| |]|done].
  rewrite mexec_app, H1. simpl. by rewrite E.
Qed.
Lemma closed_gate md ls1 ls2 s a g sk p3 us : mexec md (ls1 ++ ls2) mst0 = Some s → MClose g ∈ ls1 → length (attempts [] ls1) ≤ a →
  attempts [] (ls1 ++ ls2) !! a = Some (g, sk, p3, us) → CGo a ∉ m_log s.
Proof.
  intros H Hc Hlen Ha. pose proof (minv_all _ _ _ H) as Hi. rewrite mexec_app in H. destruct (mexec md ls1 mst0) as [s1|] eqn:E; [|done]. simpl in H.
  pose proof (minv_all _ _ _ E) as Hi1. assert (m_att s1 !! a = None) as HN. { apply lookup_ge_None_2. by rewrite (mi_len _ _ _ Hi1). }
  assert (shut a g s) as [_ _ S3].
  { eapply shut_exec; [exact E| |exact H]. split; [by apply (mi_closed _ _ _ Hi1)|by intros x; rewrite HN|].
    intros _ Hin. destruct (mi_go _ _ _ Hi1 a Hin) as (?&?&?&?&H1&_). apply lookup_lt_Some in H1. lia. }
  apply S3. right. destruct (m_att s !! a) as [x|] eqn:Hx.
  - exists x. split; [done|]. destruct (mi_att _ _ _ Hi a x Hx) as (?&?&?&?&H1&H2&_). congruence.
  - apply lookup_ge_None in Hx. rewrite (mi_len _ _ _ Hi) in Hx. apply lookup_lt_Some in Ha. lia.
Qed.

(** Catch-all listeners. *)
Definition is_any (a : nat) (e : mev) : bool := match e with CAny b => bool_decide (b = a) | _ => false end.
Lemma any_none a evs : (∀ b, CAny b ∈ evs → b ≠ a) → filter (is_any a) evs = [].
Proof.
  induction evs as [|e evs IH]; intros H; [done|]. rewrite filter_cons, decide_False; [apply IH; intros b Hb; apply H; by right|].
  destruct e; simpl; try tauto. case_bool_decide as Hb; [|simpl; tauto]. exfalso. apply (H a0); [by left|done].
Qed.
Lemma any_once ls s a : mexec EvMode ls mst0 = Some s → filter (is_any a) (m_log s) = if decide (a < length (attempts [] ls)) then [CAny a] else [].
Proof.
  revert ls s. apply (mexec_ind EvMode (λ ls s, filter (is_any a) (m_log s) = if decide (a < length (attempts [] ls)) then [CAny a] else [])); [done|].
  intros ls l s s' H IH Hs. pose proof (minv_all _ _ _ H) as Hi. rewrite attempts_snoc.
  assert (∀ evs, (∀ g sk p3, l ≠ MStart g sk p3) → m_log s' = m_log s ++ evs → (∀ b, CAny b ∉ evs) →
    filter (is_any a) (m_log s') = if decide (a < length (attempts [] ls ++ match l with MStart g sk p3 => [(g, sk, p3, uses ls)] | _ => [] end)) then [CAny a] else []) as Hgen.
  { intros evs Hl -> He. rewrite filter_app, IH, (any_none a evs), app_nil_r; [|by intros b Hb; destruct (He b)]. destruct l; rewrite ?app_nil_r; try done. by destruct (Hl g skip p3). }
  destruct l as [f|h sk p3|b k err|b j|h]; cbn [mstep] in Hs.
  - injection Hs as <-. apply (Hgen []); [done|by rewrite app_nil_r|]. intros b Hb. by apply elem_of_nil in Hb.
  - injection Hs as <-. clear Hgen. unfold mstart. destruct (mrun0 (length (m_att s)) h p3 (m_fns s)) as [x evs] eqn:E0. cbn [m_log].
    rewrite filter_app, IH, app_length. simpl. rewrite filter_cons. rewrite (any_none a evs).
    2: { unfold mrun0 in E0. intros b Hb. destruct (m_fns s); injection E0 as <- <-; rewrite ?elem_of_list_singleton, ?elem_of_nil in Hb; naive_solver. }
    simpl. rewrite <- (mi_len _ _ _ Hi). destruct (decide (length (m_att s) = a)) as [<-|Hne].
    + rewrite bool_decide_eq_true_2 by done. simpl. rewrite decide_False by lia. by rewrite decide_True by lia.
    + rewrite bool_decide_eq_false_2 by done. simpl. rewrite app_nil_r. destruct (decide (a < length (m_att s))); [by rewrite decide_True by lia|by rewrite decide_False by lia].
  - unfold mnext in Hs. destruct (m_att s !! b) as [x|] eqn:Hx; [|done]. destruct (at_inv x !! k) as [i|] eqn:Hk; [|done].
    destruct err as [e|]; [|destruct (Nat.leb _ _); [|destruct (at_fns x !! S i) as [f|]; [|done]]]; injection Hs as <-; eapply Hgen; try done.
    all: intros c Hc; rewrite ?elem_of_cons, elem_of_nil in Hc; naive_solver.
  - destruct (m_att s !! b) as [x|] eqn:Hx; [|done]. destruct (at_tasks x !! j) as [t|] eqn:Hj; [|done].
    destruct (mtask EvMode b x t s) as [[t' evs]|] eqn:Ht; [|done]. injection Hs as <-. eapply Hgen; try done.
    unfold mtask in Ht. destruct t as [[e|]|e| |]; try done; try (destruct (bool_decide (at_gate x ∈ m_closed s))); injection Ht as <- <-.
    all: intros c Hc; rewrite ?elem_of_cons, elem_of_nil in Hc; naive_solver.
  - injection Hs as <-. apply (Hgen []); [done|by rewrite app_nil_r|]. intros b Hb. by apply elem_of_nil in Hb.
Qed.

Lemma payload_refusal p3 e : err_payload p3 e = refusal p3 e.
Proof. unfold err_payload, refusal. by destruct p3, (me_data e). Qed.
Lemma ns_once ls s a g p3 us : mexec NsMode ls mst0 = Some s → one_answer ls a → attempts [] ls !! a = Some (g, false, p3, us) →
  mw_part a (m_log s) = conversation a 0 us (answers ls a) ∧
  match verdict_of us (answers ls a) with
  | VWait => outcome a (m_log s) = []
  | VPass => outcome a (m_log s) = [CGo a] ∨ (outcome a (m_log s) = [CClean a] ∧ ¬ stays_open ls g) ∨ (outcome a (m_log s) = [] ∧ ¬ settled s a)
  | VFail e => outcome a (m_log s) = [CClean a; CErrPkt a (refusal p3 e)] ∨ (outcome a (m_log s) = [CClean a] ∧ (settled s a → ¬ stays_open ls g)) ∨
               (outcome a (m_log s) = [] ∧ ¬ settled s a)
  end.
Proof.
  intros H1 H2 H3. destruct (one_answer_all _ _ _ _ _ _ _ _ H1 H2 H3 (λ _, eq_refl)) as (A1&_&A3). split; [done|].
  unfold stays_open. destruct (verdict_of us (answers ls a)) as [| |e]; [done|..]; unfold final in A3.
  - naive_solver.
  - rewrite <- payload_refusal. naive_solver.
Qed.
Lemma ev_once ls s a g sk p3 us : mexec EvMode ls mst0 = Some s → one_answer ls a → attempts [] ls !! a = Some (g, sk, p3, us) →
  mw_part a (m_log s) = conversation a 0 us (answers ls a) ∧
  match verdict_of us (answers ls a) with
  | VWait => outcome a (m_log s) = []
  | VPass => outcome a (m_log s) = [CGo a] ∨ (outcome a (m_log s) = [CDrop a] ∧ ¬ stays_open ls g) ∨ (outcome a (m_log s) = [] ∧ ¬ settled s a)
  | VFail e => outcome a (m_log s) = [CErrEv a e] ∨ (outcome a (m_log s) = [] ∧ ¬ settled s a)
  end.
Proof.
  intros H1 H2 H3. assert (EvMode = NsMode → sk = false) as Hsk by done. destruct (one_answer_all _ _ _ _ _ _ _ _ H1 H2 H3 Hsk) as (A1&_&A3). split; [done|].
  unfold stays_open. destruct (verdict_of us (answers ls a)) as [| |e]; [done|..]; unfold final in A3.
  - naive_solver.
  - naive_solver.
Qed.
Lemma ev_gate ls s a : mexec EvMode ls mst0 = Some s → CGo a ∈ m_log s →
  ∃ g sk p3 us, attempts [] ls !! a = Some (g, sk, p3, us) ∧ passing a 0 us ++ [CGo a] `sublist_of` m_log s.
Proof. intros H1 H2. destruct (gate_all _ _ _ _ H1 H2) as (g&sk&p3&us&A&[[? _]|B]); [done|]. eauto 8. Qed.
Lemma ns_gate ls s a : mexec NsMode ls mst0 = Some s → CGo a ∈ m_log s →
  ∃ g sk p3 us, attempts [] ls !! a = Some (g, sk, p3, us) ∧ (sk = true ∨ passing a 0 us ++ [CGo a] `sublist_of` m_log s).
Proof. intros H1 H2. destruct (gate_all _ _ _ _ H1 H2) as (g&sk&p3&us&A&[[_ ?]|B]); eauto 8. Qed.
