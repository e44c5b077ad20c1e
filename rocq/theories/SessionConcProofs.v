(** Proofs about the store of the session-aware adapter under concurrency. *)
From Verif Require Import Base GoTypes Session SessionSpec SessionProofs SessionConc SessionConcSpec.

Lemma find_index_spec off ps n : find_index off ps = Some n → ∃ p1 p q, ps = p1 ++ p :: q ∧ length p1 = n ∧ sp_id p = off.
Proof.
  revert n. induction ps as [|p ps IH]; intros n; cbn; [done|]. destruct (decide (sp_id p = off)) as [E|E].
  - intros [= <-]. by exists [], p, ps.
  - destruct (find_index off ps) as [m|]; [|done]. cbn. intros [= <-]. destruct (IH m eq_refl) as (p1 & p' & q & -> & <- & Hp). by exists (p :: p1), p', q.
Qed.
Lemma find_index_none off ps : find_index off ps = None → off ∉ sp_id <$> ps.
Proof.
  induction ps as [|p ps IH]; cbn; [intros _; apply not_elem_of_nil|]. destruct (decide (sp_id p = off)) as [E|E]; [done|].
  destruct (find_index off ps); [done|]. intros _. rewrite not_elem_of_cons. split; [done|by apply IH].
Qed.
Lemma include_concerns o rooms p : order_ok o → p_proper (sp_opts p) → should_include (o rooms) (sp_opts p) = Some (bool_decide (p_concerns rooms p)).
Proof.
  intros Ho Hp. pose proof (should_include_spec o rooms (Bcast EVENT false [] (sp_opts p)) Ho Hp) as H. cbn in H. rewrite H. done.
Qed.

Section conc.
  Context (max : Z).
  Notation step := (qstep max).
  Notation run := (qrun max).
  Lemma qrun_snoc s sched e : run s (sched ++ [e]) = step (run s sched) e.
  Proof. unfold qrun. by rewrite foldl_app. Qed.
  Lemma qrun_app s s1 s2 : run s (s1 ++ s2) = run (run s s1) s2.
  Proof. unfold qrun. by rewrite foldl_app. Qed.

  (** What a step does, by kind. *)
  Inductive qeff (s : qstate) : nat → Z → qthread → qthread → qstate → Prop :=
  | qe_id i now t : qeff s i now t t s
  | qe_local i now t t' : match t, t' with
        | QBcast id b QB0, QBcast id' b' (QBpush u) => id' = id ∧ b' = b ∧ storable b = true ∧ u = now
        | QBcast id b QB0, QBcast id' b' QBsend => id' = id ∧ b' = b ∧ storable b = false
        | QRestore o pid off pc, QRestore o' pid' off' pc' => o' = o ∧ pid' = pid ∧ off' = off ∧
            match pc, pc' with
            | QR0, QRtest x u => q_sessions s !! pid = Some (x, u)
            | QR0, QRdone RFresh => q_sessions s !! pid = None
            | QRtest x u, QRdelete => (u + max < now)%Z
            | QRtest x u, QRfind x' => x' = x ∧ (now ≤ u + max)%Z
            | QRfind x, QRmake x' n => x' = x ∧ find_index off (q_packets s) = Some n
            | QRfind x, QRdone RFresh => find_index off (q_packets s) = None
            | QRmake x n, QRloop x' n' acc => x' = x ∧ n' = S n ∧ acc = [] ∧ n < length (q_packets s)
            | QRmake x n, QRdone RPanic => length (q_packets s) ≤ n
            | QRloop x n acc, QRget x' n' acc' => x' = x ∧ n' = n ∧ acc' = acc ∧ n < length (q_packets s)
            | QRloop x n acc, QRdone (RSession x' acc') => x' = x ∧ acc' = acc ∧ length (q_packets s) ≤ n
            | QRget x n acc, QRdone (RSession x' acc') => x' = x ∧ acc' = acc ∧ q_packets s !! n = None
            | QRget x n acc, QRdone RPanic => ∃ p, q_packets s !! n = Some p ∧ should_include (o (se_rooms x)) (sp_opts p) = None
            | QRget x n acc, QRloop x' n' acc' => x' = x ∧ n' = S n ∧ ∃ p inc, q_packets s !! n = Some p ∧ should_include (o (se_rooms x)) (sp_opts p) = Some inc ∧
                acc' = if inc then acc ++ [sp_data p] else acc
            | _, _ => False
            end
        | QPersist x QP0, QPersist x' (QPstore u) => x' = x ∧ u = now
        | QCleanup ks pc, QCleanup ks' pc' => ks' = ks ∧
            match pc, pc' with
            | QC0, QCvisit th todo => th = (now - max)%Z ∧ todo = ks
            | QCvisit th todo, QCvisit th' todo' => th' = th ∧ ∃ k, todo = k :: todo'
            | QCvisit th todo, QCdelete th' k todo' => th' = th ∧ todo = k :: todo' ∧ ∃ x u, q_sessions s !! k = Some (x, u) ∧ (u < th)%Z
            | QCvisit th todo, QCsplice th' => th' = th
            | _, _ => False
            end
        | _, _ => False
        end → qeff s i now t t' (qset s i t')
  | qe_push i now id b u : qeff s i now (QBcast id b (QBpush u)) (QBcast id b QBsend) (qset (qpush (SPacket id u (qdata id b) (bc_opts b)) s) i (QBcast id b QBsend))
  | qe_send i now id b : qeff s i now (QBcast id b QBsend) (QBcast id b QBdone) (qset (qsend (qdata id b) s) i (QBcast id b QBdone))
  | qe_rdel i now o pid off : qeff s i now (QRestore o pid off QRdelete) (QRestore o pid off (QRdone RFresh)) (qset (qsessions (delete pid) s) i (QRestore o pid off (QRdone RFresh)))
  | qe_store i now x u : qeff s i now (QPersist x (QPstore u)) (QPersist x QPdone) (qset (qsessions (insert (se_pid x) (x, u)) s) i (QPersist x QPdone))
  | qe_cdel i now ks th k todo : qeff s i now (QCleanup ks (QCdelete th k todo)) (QCleanup ks (QCvisit th todo)) (qset (qsessions (delete k) s) i (QCleanup ks (QCvisit th todo)))
  | qe_splice i now ks th : qeff s i now (QCleanup ks (QCsplice th)) (QCleanup ks QCdone) (qset (qsplice th s) i (QCleanup ks QCdone)).
  Lemma qstep_cases s i now : (q_threads s !! i = None ∧ step s (i, now) = s) ∨ ∃ t t', q_threads s !! i = Some t ∧ qeff s i now t t' (step s (i, now)).
  Proof.
    unfold qstep. destruct (q_threads s !! i) as [t|] eqn:E; [right|by left]. destruct t as [id b pc|o pid off pc|x pc|ks pc].
    - exists (QBcast id b pc). destruct pc as [|u| |].
      + destruct (storable b) eqn:Es; eexists; (split; [done|]); by apply qe_local.
      + eexists. split; [done|apply qe_push].
      + eexists. split; [done|apply qe_send].
      + eexists. split; [done|apply qe_id].
    - exists (QRestore o pid off pc). destruct pc as [|x u| |x|x n|x n acc|x n acc|r].
      + destruct (q_sessions s !! pid) as [[x u]|] eqn:Es; eexists; (split; [done|]); apply qe_local; done.
      + destruct (Z.ltb_spec (u + max) now); eexists; (split; [done|]); apply qe_local; done.
      + eexists. split; [done|apply qe_rdel].
      + destruct (find_index off (q_packets s)) as [n|] eqn:Ef; eexists; (split; [done|]); apply qe_local; done.
      + destruct (Nat.ltb_spec n (length (q_packets s))); eexists; (split; [done|]); apply qe_local; done.
      + destruct (Nat.ltb_spec n (length (q_packets s))); eexists; (split; [done|]); apply qe_local; done.
      + destruct (q_packets s !! n) as [p|] eqn:Ep; [|eexists; split; [done|]; apply qe_local; done].
        destruct (should_include (o (se_rooms x)) (sp_opts p)) as [inc|] eqn:Ei; eexists; (split; [done|]); (apply qe_local; split; [done|]; split; [done|]; split; [done|]); [|by exists p]. split; [done|]. split; [done|]. by exists p, inc.
      + eexists. split; [done|apply qe_id].
    - exists (QPersist x pc). destruct pc as [|u|]; eexists; (split; [done|]); [by apply qe_local|apply qe_store|apply qe_id].
    - exists (QCleanup ks pc). destruct pc as [|th [|k todo]|th k todo|th|].
      + eexists. split; [done|]. by apply qe_local.
      + eexists. split; [done|]. by apply qe_local.
      + destruct (q_sessions s !! k) as [[x u]|] eqn:Es.
        * destruct (Z.ltb_spec u th); eexists; (split; [done|]); apply qe_local; (split; [done|]); [split; [done|]; split; [done|]; by exists x, u|]. split; [done|]. by exists k.
        * eexists; split; [done|]. apply qe_local. split; [done|]. split; [done|]. by exists k.
      + eexists. split; [done|apply qe_cdel].
      + eexists. split; [done|apply qe_splice].
      + eexists. split; [done|apply qe_id].
  Qed.
  Lemma qeff_threads s i now t t' s' : q_threads s !! i = Some t → qeff s i now t t' s' → q_threads s' = <[i := t']> (q_threads s).
  Proof. intros E H. destruct H; cbn; try done. by rewrite list_insert_id. Qed.
  Lemma qeff_packets s i now t t' s' : qeff s i now t t' s' →
    (q_packets s' = q_packets s ∧ q_pushed s' = q_pushed s ∧ q_removed s' = q_removed s) ∨
    (∃ id b u, t = QBcast id b (QBpush u) ∧ t' = QBcast id b QBsend ∧ let p := SPacket id u (qdata id b) (bc_opts b) in q_packets s' = q_packets s ++ [p] ∧ q_pushed s' = q_pushed s ++ [p] ∧ q_removed s' = q_removed s) ∨
    (∃ ks th n, t = QCleanup ks (QCsplice th) ∧ n ≤ length (q_packets s) ∧ q_packets s' = drop n (q_packets s) ∧ q_pushed s' = q_pushed s ∧ q_removed s' = q_removed s + n).
  Proof.
    intros H. destruct H; try (by left).
    - right. left. by exists id, b, u.
    - right. right. destruct (splice_drop th (q_packets s)) as [k Hk]. exists ks, th, (length (q_packets s) - length (splice_expired th (q_packets s))).
      split; [done|]. split; [lia|]. cbn. split; [|done]. rewrite Hk, drop_length.
      destruct (decide (k ≤ length (q_packets s))) as [Hle|Hle]; [f_equal; lia|]. rewrite (drop_ge _ k) by lia. rewrite drop_ge; [done|]. lia.
  Qed.

  (** ** The invariant *)
  Definition q_reset (t : qthread) : qthread :=
    match t with QBcast id b _ => QBcast id b QB0 | QRestore o pid off _ => QRestore o pid off QR0 | QPersist x _ => QPersist x QP0 | QCleanup ks _ => QCleanup ks QC0 end.
  Lemma qeff_reset s i now t t' s' : qeff s i now t t' s' → q_reset t' = q_reset t.
  Proof.
    intros H. destruct H as [|i now t t' H| | | | | | ]; cbn; try done.
    destruct t as [id b pc|o pid off pc|x pc|ks pc]; destruct t' as [id' b' pc'|o' pid' off' pc'|x' pc'|ks' pc']; cbn; try done;
      repeat case_match; subst; try done; destruct_and?; subst; done.
  Qed.
  Lemma step_reset s e : q_reset <$> q_threads (step s e) = q_reset <$> q_threads s.
  Proof.
    destruct e as [i now]. destruct (qstep_cases s i now) as [[_ ->]|(t & t' & Et & H)]; [done|].
    rewrite (qeff_threads _ _ _ _ _ _ Et H), list_fmap_insert, (qeff_reset _ _ _ _ _ _ H). apply list_insert_id. by rewrite list_lookup_fmap, Et.
  Qed.
  Lemma run_reset s sched : q_reset <$> q_threads (run s sched) = q_reset <$> q_threads s.
  Proof. induction sched as [|e sched IH] using rev_ind; [done|]. by rewrite qrun_snoc, step_reset. Qed.

  Context (ses : gmap string (session * Z)) (ps : list spacket) (ts : list qthread).
  Context (Hstart : q_start ps ts).
  Notation s0 := (qinit ses ps ts).
  Lemma fresh_reset : q_reset <$> ts = ts.
  Proof.
    destruct Hstart as (Hf & _). clear Hstart. induction Hf as [|t l Ht _ IH]; [done|]. cbn. f_equal; [|done].
    destruct t; cbn in Ht |- *; destruct_and?; subst; done.
  Qed.
  Lemma run_init sched i t : q_threads (run s0 sched) !! i = Some t → ts !! i = Some (q_reset t).
  Proof. intros H. pose proof (run_reset s0 sched) as HR. cbn in HR. rewrite fresh_reset in HR. rewrite <- HR, list_lookup_fmap, H. done. Qed.
  Lemma run_bcast sched i id b pc : q_threads (run s0 sched) !! i = Some (QBcast id b pc) → ts !! i = Some (QBcast id b QB0) ∧ p_proper (bc_opts b) ∧ id ∉ sp_id <$> ps.
  Proof.
    intros H%run_init. cbn in H. destruct Hstart as (Hf & _ & _ & Hn & _). split; [done|]. split; [|by eapply Hn].
    rewrite Forall_lookup in Hf. apply Hf in H. cbn in H. tauto.
  Qed.
  Lemma run_order sched i o pid off pc : q_threads (run s0 sched) !! i = Some (QRestore o pid off pc) → order_ok o.
  Proof. intros H%run_init. destruct Hstart as (Hf & _). rewrite Forall_lookup in Hf. apply Hf in H. cbn in H. tauto. Qed.

  Lemma qeff_bpush s i now t t' s' id b u : qeff s i now t t' s' → t' = QBcast id b (QBpush u) → t = t' ∨ storable b = true.
  Proof.
    intros H ->. inversion H; subst; [by left|]. right. destruct t as [id' b' pc'|? ? ? ?|? pc'|? ?]; try done; destruct pc'; try done. by destruct_and?; subst.
  Qed.
  Lemma run_push_storable sched i id b u : q_threads (run s0 sched) !! i = Some (QBcast id b (QBpush u)) → storable b = true.
  Proof.
    revert i id b u. induction sched as [|[k now] sched IH] using rev_ind; intros i id b u Hi.
    - exfalso. destruct Hstart as (Hf & _). rewrite Forall_lookup in Hf. apply Hf in Hi. cbn in Hi. by destruct Hi.
    - rewrite qrun_snoc in Hi. destruct (qstep_cases (run s0 sched) k now) as [[_ Hs]|(t & t' & Et & H)].
      + rewrite Hs in Hi. by eapply IH.
      + rewrite (qeff_threads _ _ _ _ _ _ Et H) in Hi. apply list_lookup_insert_Some in Hi as [(-> & -> & _)|[_ Hi]]; [|by eapply IH].
        destruct (qeff_bpush _ _ _ _ _ _ _ _ _ H eq_refl) as [->|?]; [by eapply IH|done].
  Qed.
  Lemma qdata_storable id b : storable b = true → qdata id b = bc_data b ++ [VStr id].
  Proof. unfold qdata. by intros ->. Qed.

  Definition past (pc : qbpc) : Prop := pc = QBsend ∨ pc = QBdone.
  Record qinv (s : qstate) : Prop := {
    v_drop : q_packets s = drop (q_removed s) (q_pushed s);
    v_len : q_removed s ≤ length (q_pushed s);
    v_ids : NoDup (sp_id <$> q_pushed s);
    v_from : ∀ p, p ∈ q_pushed s → p ∈ ps ∨ ∃ i id b pc u, q_threads s !! i = Some (QBcast id b pc) ∧ past pc ∧ storable b = true ∧ p = SPacket id u (bc_data b ++ [VStr id]) (bc_opts b);
    v_in : ∀ i id b pc, q_threads s !! i = Some (QBcast id b pc) → past pc → storable b = true → ∃ u, SPacket id u (bc_data b ++ [VStr id]) (bc_opts b) ∈ q_pushed s;
    v_proper : ∀ p, p ∈ q_pushed s → p_proper (sp_opts p) }.
  Lemma qeff_past s i now t t' s' : qeff s i now t t' s' → ∀ id b pc, t = QBcast id b pc → past pc → ∃ pc', t' = QBcast id b pc' ∧ past pc'.
  Proof.
    intros H id b pc -> Hp. inversion H; subst; eauto; try (by destruct Hp).
    - destruct Hp; subst; destruct t'; done.
    - eexists. split; [done|]. by right.
  Qed.
  Lemma qeff_past_rev s i now t t' s' : qeff s i now t t' s' → ∀ id b pc', t' = QBcast id b pc' → past pc' → storable b = true → (∃ pc, t = QBcast id b pc ∧ past pc) ∨ ∃ u, t = QBcast id b (QBpush u).
  Proof.
    intros H id b pc -> Hp Hs. inversion H; subst; eauto.
    - destruct t as [id' b' pc'|? ? ? ?|? pc'|? ?]; try done; destruct Hp; subst; destruct pc'; try done. destruct_and?; subst. congruence.
    - left. eexists. split; [done|]. by left.
  Qed.
  Lemma qinv_run sched : qinv (run s0 sched).
  Proof.
    induction sched as [|[k now] sched IH] using rev_ind.
    { destruct Hstart as (Hf & Hp & Hn & _). rewrite Forall_lookup in Hf. split; cbn; try done; [lia|intros p Hin; by left| |].
      - intros i id b pc Hi Hpast _. apply Hf in Hi. cbn in Hi. destruct Hi as [-> _]. by destruct Hpast.
      - intros p Hin. rewrite Forall_forall in Hp. by apply Hp. }
    rewrite qrun_snoc. set (s := run s0 sched) in *. destruct (qstep_cases s k now) as [[_ ->]|(t & t' & Et & H)]; [done|].
    pose proof (qeff_threads _ _ _ _ _ _ Et H) as Hth. pose proof (qeff_past _ _ _ _ _ _ H) as Hpast. pose proof (qeff_past_rev _ _ _ _ _ _ H) as Hrev.
    assert (Hk : k < length (q_threads s)) by (by eapply lookup_lt_Some).
    assert (Hkeep : ∀ i id b pc, q_threads s !! i = Some (QBcast id b pc) → past pc → ∃ pc', q_threads (step s (k, now)) !! i = Some (QBcast id b pc') ∧ past pc').
    { intros i id b pc Hi Hp. rewrite Hth. destruct (decide (i = k)) as [->|Hne].
      - rewrite Et in Hi. injection Hi as ->. destruct (Hpast id b pc eq_refl Hp) as (pc' & -> & Hp'). exists pc'. split; [by apply list_lookup_insert|done].
      - exists pc. split; [by rewrite list_lookup_insert_ne|done]. }
    assert (Hold : ∀ p, p ∈ q_pushed s → p ∈ ps ∨ ∃ i id b pc u, q_threads (step s (k, now)) !! i = Some (QBcast id b pc) ∧ past pc ∧ storable b = true ∧ p = SPacket id u (bc_data b ++ [VStr id]) (bc_opts b)).
    { intros p Hp. destruct (v_from _ IH p Hp) as [?|(i & id & b & pc & u & Hi & Hpc & Hs & ->)]; [by left|right].
      destruct (Hkeep _ _ _ _ Hi Hpc) as (pc' & Hi' & Hpc'). by exists i, id, b, pc', u. }
    assert (Hsame : q_pushed (step s (k, now)) = q_pushed s → (∀ id b u, t = QBcast id b (QBpush u) → False) → ∀ i id b pc, q_threads (step s (k, now)) !! i = Some (QBcast id b pc) → past pc → storable b = true → ∃ u, SPacket id u (bc_data b ++ [VStr id]) (bc_opts b) ∈ q_pushed s).
    { intros Hq Hno i id b pc Hi Hp Hs. rewrite Hth in Hi. apply list_lookup_insert_Some in Hi as [(-> & Heq & _)|[_ Hi]].
      - destruct (Hrev id b pc Heq Hp Hs) as [(pc0 & -> & Hp0)|[u ->]]; [|by destruct (Hno id b u)]. by eapply (v_in _ IH).
      - by eapply (v_in _ IH). }
    destruct (qeff_packets _ _ _ _ _ _ H) as [(E1 & E2 & E3)|[(id & b & u & -> & -> & E1 & E2 & E3)|(ks & th & n & -> & Hn & E1 & E2 & E3)]].
    - assert (Hno : ∀ id b u, t = QBcast id b (QBpush u) → False).
      { intros id b u ->. unfold qstep in E2. rewrite Et in E2. cbn in E2. apply (f_equal length) in E2. rewrite app_length in E2. cbn in E2. lia. }
      split; rewrite ?E1, ?E2, ?E3; try apply IH; try done. by apply Hsame.
    - assert (Hsb : storable b = true) by (by eapply run_push_storable). assert (Hd := qdata_storable id b Hsb). rewrite Hd in E1, E2.
      destruct (run_bcast _ _ _ _ _ Et) as (Hi0 & Hprop & Hnot).
      split.
      + rewrite E1, E2, E3, (v_drop _ IH), drop_app_le; [done|apply IH].
      + rewrite E2, E3, app_length. pose proof (v_len _ IH). lia.
      + rewrite E2, fmap_app. apply NoDup_app. split; [apply IH|]. split; [|apply NoDup_singleton].
        intros x Hx Hin. apply elem_of_list_singleton in Hin. cbn in Hin. subst x. apply elem_of_list_fmap in Hx as (p & Hid & Hp).
        destruct (v_from _ IH p Hp) as [Hps|(i & id' & b' & pc & u' & Hi & Hpc & Hs & ->)].
        * apply Hnot. apply elem_of_list_fmap. by exists p.
        * cbn in Hid. subst id'. destruct (run_bcast _ _ _ _ _ Hi) as (Hi1 & _). destruct Hstart as (_ & _ & _ & _ & Hinj).
          assert (i = k) as -> by (by eapply Hinj). rewrite Et in Hi. injection Hi as _ <-. by destruct Hpc.
      + intros p Hp. rewrite E2 in Hp. apply elem_of_app in Hp as [Hp|Hp]; [by apply Hold|]. apply elem_of_list_singleton in Hp as ->. right.
        exists k, id, b, QBsend, u. split; [by rewrite Hth, list_lookup_insert|]. split; [by left|done].
      + intros i id' b' pc Hi Hp Hs. rewrite Hth in Hi. rewrite E2. apply list_lookup_insert_Some in Hi as [(-> & Heq & _)|[_ Hi]].
        * injection Heq as <- <- <-. exists u. apply elem_of_app. right. by apply elem_of_list_singleton.
        * destruct (v_in _ IH _ _ _ _ Hi Hp Hs) as [u' Hu']. exists u'. apply elem_of_app. by left.
      + intros p Hp. rewrite E2 in Hp. apply elem_of_app in Hp as [Hp|Hp]; [by apply IH|]. by apply elem_of_list_singleton in Hp as ->.
    - split; rewrite ?E2; try apply IH; try done.
      + rewrite E1, E3, (v_drop _ IH), drop_drop. done.
      + rewrite E3. pose proof (v_len _ IH). rewrite (v_drop _ IH), drop_length in Hn. lia.
      + by apply Hsame.
  Qed.

  (** ** The log *)
  Lemma run_pushed sched1 sched2 : q_pushed (run s0 (sched1 ++ sched2)) = q_pushed (run s0 sched1) ++ q_log max (run s0 sched1) sched2.
  Proof.
    revert sched1. induction sched2 as [|[k now] sched2 IH]; intros sched1; [by rewrite !app_nil_r|].
    replace (sched1 ++ (k, now) :: sched2) with ((sched1 ++ [(k, now)]) ++ sched2) by (by rewrite <- app_assoc). rewrite IH, qrun_snoc.
    cbn [q_log fst]. rewrite app_assoc. f_equal. destruct (qstep_cases (run s0 sched1) k now) as [[E Hs]|(t & t' & Et & H)].
    - rewrite Hs, E. by rewrite app_nil_r.
    - rewrite Et. destruct (qeff_packets _ _ _ _ _ _ H) as [(E1 & E2 & E3)|[(id & b & u & -> & -> & E1 & E2 & E3)|(ks & th & n & -> & Hn & E1 & E2 & E3)]].
      + rewrite E2. destruct t as [id b pc| | |]; try (by rewrite app_nil_r). destruct pc as [|u| |]; try (by rewrite app_nil_r).
        exfalso. unfold qstep in E2. rewrite Et in E2. cbn in E2. apply (f_equal length) in E2. rewrite app_length in E2. cbn in E2. lia.
      + rewrite E2. rewrite (qdata_storable id b) by (by eapply run_push_storable). done.
      + by rewrite E2, app_nil_r.
  Qed.
  Lemma run_pushed0 sched : q_pushed (run s0 sched) = ps ++ q_log max s0 sched.
  Proof. exact (run_pushed [] sched). Qed.

  (** ** What the threads remember of the schedule *)
  Definition qmem (sched : list (nat * Z)) (i : nat) (t : qthread) : Prop :=
    match t with
    | QBcast id b (QBpush u) => (i, u) ∈ sched
    | QCleanup _ (QCvisit th _) | QCleanup _ (QCdelete th _ _) | QCleanup _ (QCsplice th) => ∃ e, e ∈ sched ∧ th = (e.2 - max)%Z
    | _ => True
    end.
  Lemma qmem_mono sched e i t : qmem sched i t → qmem (sched ++ [e]) i t.
  Proof.
    destruct t as [id b pc|? ? ? ?|? ?|? pc]; cbn; try done; destruct pc; try done.
    - intros. apply elem_of_app. by left.
    - intros (e' & He & ->). exists e'. split; [apply elem_of_app; by left|done].
    - intros (e' & He & ->). exists e'. split; [apply elem_of_app; by left|done].
    - intros (e' & He & ->). exists e'. split; [apply elem_of_app; by left|done].
  Qed.
  Lemma qmem_run sched i t : q_threads (run s0 sched) !! i = Some t → qmem sched i t.
  Proof.
    revert i t. induction sched as [|[k now] sched IH] using rev_ind; intros i t Hi.
    - destruct Hstart as (Hf & _). rewrite Forall_lookup in Hf. apply Hf in Hi. destruct t; cbn in Hi |- *; destruct_and?; subst; done.
    - rewrite qrun_snoc in Hi. destruct (qstep_cases (run s0 sched) k now) as [[_ Hs]|(t0 & t' & Et & H)].
      + rewrite Hs in Hi. by apply qmem_mono, IH.
      + rewrite (qeff_threads _ _ _ _ _ _ Et H) in Hi. apply list_lookup_insert_Some in Hi as [(Hki & <- & _)|[_ Hi]]; [subst i|by apply qmem_mono, IH].
        assert (Hin : (k, now) ∈ sched ++ [(k, now)]) by (apply elem_of_app; right; by apply elem_of_list_singleton).
        apply IH in Et. apply (qmem_mono _ (k, now)) in Et. inversion H as [| ? ? ? ? Hl | | | | | | ]; subst; try done.
        destruct t0 as [id b pc|? ? ? pc|? pc|? pc]; destruct t' as [id' b' pc'|? ? ? pc'|? pc'|? pc']; try done; destruct pc, pc'; cbn in Et, Hl |- *; try done; destruct_and?; subst; try done.
        all: try (eexists; split; [exact Hin|done]).
  Qed.

  (** ** Removed packets *)
  Lemma splice_shorter th l : existsb (λ q, (sp_at q <? th)%Z) l = true → length (splice_expired th l) < length l.
  Proof.
    induction l as [|p l IH]; [done|]. cbn. intros H. destruct (existsb _ l) eqn:E; [specialize (IH eq_refl); lia|].
    destruct (sp_at p <? th)%Z; [lia|done].
  Qed.
  Lemma splice_last th l : splice_expired th l = l ∨ ∃ k q, splice_expired th l = drop (S k) l ∧ l !! k = Some q ∧ (sp_at q < th)%Z.
  Proof.
    induction l as [|p l IH]; [by left|]. cbn [splice_expired]. destruct (existsb (λ q, (sp_at q <? th)%Z) l) eqn:E.
    - right. destruct IH as [IH|(k & q & IH & Hq & Hlt)].
      + apply splice_shorter in E. rewrite IH in E. lia.
      + by exists (S k), q.
    - destruct (Z.ltb_spec (sp_at p) th) as [Hlt|Hge]; [right; by exists 0, p|by left].
  Qed.
  Lemma removed_run sched : q_removed (run s0 sched) = 0 ∨ ∃ q e, q_pushed (run s0 sched) !! (q_removed (run s0 sched) - 1) = Some q ∧ e ∈ sched ∧ (sp_at q + max < e.2)%Z.
  Proof.
    induction sched as [|[k now] sched IH] using rev_ind; [by left|]. rewrite qrun_snoc. set (s := run s0 sched) in *.
    assert (Hmono : ∀ l, (q_removed s = 0 ∨ ∃ q e, q_pushed s !! (q_removed s - 1) = Some q ∧ e ∈ sched ∧ (sp_at q + max < e.2)%Z) →
      q_removed s = 0 ∨ ∃ q e, (q_pushed s ++ l) !! (q_removed s - 1) = Some q ∧ e ∈ sched ++ [(k, now)] ∧ (sp_at q + max < e.2)%Z).
    { intros l [?|(q & e & Hq & He & Hlt)]; [by left|right]. exists q, e. split; [by apply lookup_app_l_Some|]. split; [apply elem_of_app; by left|done]. }
    destruct (qstep_cases s k now) as [[_ ->]|(t & t' & Et & H)].
    { specialize (Hmono [] IH). by rewrite app_nil_r in Hmono. }
    destruct (qeff_packets _ _ _ _ _ _ H) as [(E1 & E2 & E3)|[(id & b & u & -> & -> & E1 & E2 & E3)|(ks & th & n & -> & Hn & E1 & E2 & E3)]].
    - rewrite E2, E3. specialize (Hmono [] IH). by rewrite app_nil_r in Hmono.
    - rewrite E2, E3. by apply Hmono.
    - clear E1 E2 E3 Hn n. unfold qstep. rewrite Et. cbn [qset qsplice q_removed q_pushed q_packets].
      destruct (splice_last th (q_packets s)) as [Hsp|(n & q & Hsp & Hq & Hlt)]; rewrite Hsp.
      + rewrite Nat.sub_diag, Nat.add_0_r. specialize (Hmono [] IH). by rewrite app_nil_r in Hmono.
      + right. destruct (qmem_run _ _ _ Et) as (e & He & ->). exists q, e. rewrite drop_length. pose proof (lookup_lt_Some _ _ _ Hq) as Hlen.
        replace (q_removed s + (length (q_packets s) - (length (q_packets s) - S n)) - 1) with (q_removed s + n) by lia.
        pose proof (v_drop _ (qinv_run sched)) as Hvd; fold s in Hvd; rewrite Hvd, lookup_drop in Hq. split; [done|]. split; [apply elem_of_app; by left|lia].
  Qed.
  Lemma pushed_time sched p : p ∈ q_pushed (run s0 sched) → p ∈ ps ∨ ∃ i id b pc, (i, sp_at p) ∈ sched ∧ q_threads (run s0 sched) !! i = Some (QBcast id b pc) ∧ past pc ∧ storable b = true ∧ sp_id p = id ∧ sp_data p = bc_data b ++ [VStr id] ∧ sp_opts p = bc_opts b.
  Proof.
    revert p. induction sched as [|[k now] sched IH] using rev_ind; intros p Hp; [by left|].
    pose proof (v_from _ (qinv_run (sched ++ [(k, now)])) p Hp) as Hfrom. destruct Hfrom as [?|(i & id & b & pc & u & Hi & Hpc & Hs & ->)]; [by left|].
    right. exists i, id, b, pc. cbn. split; [|done]. rewrite qrun_snoc in Hp.
    set (s := run s0 sched) in *.
    assert (Hcase : SPacket id u (bc_data b ++ [VStr id]) (bc_opts b) ∈ q_pushed s ∨ ∃ b', q_threads s !! k = Some (QBcast id b' (QBpush u))).
    { destruct (qstep_cases s k now) as [[_ Hs']|(t & t' & Et & H)]; [rewrite Hs' in Hp; by left|].
      destruct (qeff_packets _ _ _ _ _ _ H) as [(E1 & E2 & E3)|[(id' & b' & u' & -> & -> & E1 & E2 & E3)|(ks & th & n & -> & Hn & E1 & E2 & E3)]]; rewrite E2 in Hp; try (by left).
      apply elem_of_app in Hp as [?|Hp]; [by left|]. apply elem_of_list_singleton in Hp. inversion Hp; subst. right. by exists b'. }
    destruct Hcase as [Hold|[b' Et]].
    - apply IH in Hold as [Hps|(i' & id' & b' & pc' & Hin & Hi' & _ & _ & Hid & _)].
      + exfalso. destruct (run_bcast _ _ _ _ _ Hi) as (_ & _ & Hnot). apply Hnot. apply elem_of_list_fmap. eexists; split; [|exact Hps]; done.
      + cbn in Hin, Hid. subst id'. destruct (run_bcast _ _ _ _ _ Hi) as (H1 & _). destruct (run_bcast _ _ _ _ _ Hi') as (H2 & _).
        destruct Hstart as (_ & _ & _ & _ & Hinj). assert (i = i') as -> by (by eapply Hinj). apply elem_of_app. by left.
    - destruct (run_bcast _ _ _ _ _ Hi) as (H1 & _). destruct (run_bcast _ _ _ _ _ Et) as (H2 & _).
      destruct Hstart as (_ & _ & _ & _ & Hinj). assert (i = k) as -> by (by eapply Hinj). apply elem_of_app. left. exact (qmem_run _ _ _ Et).
  Qed.

  (** ** The content of the store *)
  Theorem store_log sched : let s := run s0 sched in let log := ps ++ q_log max s0 sched in
    (∃ k, q_packets s = drop k log ∧ ∀ j p, j < k → log !! j = Some p → ∃ j' q e, j ≤ j' ∧ log !! j' = Some q ∧ e ∈ sched ∧ (sp_at q + max < e.2)%Z) ∧
    NoDup (sp_id <$> log) ∧
    (∀ p, p ∈ q_log max s0 sched → ∃ i, (i, sp_at p) ∈ sched ∧ q_in_store s i ∧ q_packet_of s i p) ∧
    (∀ i, q_in_store s i → ∃ p, p ∈ q_log max s0 sched ∧ q_packet_of s i p).
  Proof.
    cbn zeta. pose proof (qinv_run sched) as HI. pose proof (run_pushed0 sched) as HP. rewrite <- HP. split_and!.
    - exists (q_removed (run s0 sched)). split; [apply HI|]. intros j p Hj Hp. destruct (removed_run sched) as [E|(q & e & Hq & He & Hlt)]; [lia|].
      exists (q_removed (run s0 sched) - 1), q, e. split; [lia|done].
    - apply HI.
    - intros p Hp. assert (Hin : p ∈ q_pushed (run s0 sched)) by (rewrite HP; apply elem_of_app; by right).
      destruct (pushed_time sched p Hin) as [Hps|(i & id & b & pc & H1 & Hi & Hpc & Hs & Hid & Hd & Ho)].
      + exfalso. pose proof (v_ids _ HI) as Hnd. rewrite HP, fmap_app in Hnd. apply NoDup_app in Hnd as (_ & Hdis & _).
        apply (Hdis (sp_id p)); apply elem_of_list_fmap; by exists p.
      + exists i. split; [done|]. split; [exists id, b, pc; split; [done|]; split; [by apply storable_recoverable|done]|].
        exists id, b, pc, (sp_at p). split; [done|]. destruct p; cbn in *; by subst.
    - intros i (id & b & pc & Hi & Hr & Hpc). destruct (v_in _ HI i id b pc Hi Hpc) as [u Hu]; [by apply storable_recoverable|].
      rewrite HP in Hu. apply elem_of_app in Hu as [Hu|Hu].
      + exfalso. destruct (run_bcast _ _ _ _ _ Hi) as (_ & _ & Hnot). apply Hnot. apply elem_of_list_fmap. eexists; split; [|exact Hu]; done.
      + eexists. split; [exact Hu|]. by exists id, b, pc, u.
  Qed.

  (** ** A restoration *)
  Definition loaded (sched : list (nat * Z)) (pid : string) (x : session) (u : Z) : Prop :=
    ∃ s1 s2, sched = s1 ++ s2 ∧ q_sessions (run s0 s1) !! pid = Some (x, u).
  Definition valid (sched : list (nat * Z)) (i : nat) (pid : string) (x : session) : Prop :=
    ∃ s1 s2 u now, sched = s1 ++ s2 ∧ q_sessions (run s0 s1) !! pid = Some (x, u) ∧ (i, now) ∈ s2 ∧ (now ≤ u + max)%Z.
  Definition found (sched : list (nat * Z)) (off : string) (j : nat) (p : spacket) : Prop :=
    q_pushed (run s0 sched) !! j = Some p ∧ sp_id p = off ∧ ∃ s1 s2, sched = s1 ++ s2 ∧ p ∈ q_packets (run s0 s1).
  Definition partly (sched : list (nat * Z)) (off : string) (x : session) (bound : option nat) (acc : list (list value)) : Prop :=
    ∃ j p m, found sched off j p ∧ j < m ∧ m ≤ length (q_pushed (run s0 sched)) ∧ (∀ n, bound = Some n → m ≤ q_removed (run s0 sched) + n) ∧
      acc `sublist_of` (sp_data <$> filter (p_concerns (se_rooms x)) (drop (S j) (take m (q_pushed (run s0 sched))))).
  Definition rmem (sched : list (nat * Z)) (i : nat) (t : qthread) : Prop :=
    match t with
    | QRestore o pid off pc =>
        match pc with
        | QRtest x u => loaded sched pid x u
        | QRfind x => valid sched i pid x
        | QRmake x n => valid sched i pid x ∧ ∃ j p, found sched off j p ∧ j ≤ q_removed (run s0 sched) + n
        | QRloop x n acc | QRget x n acc => valid sched i pid x ∧ partly sched off x (Some n) acc
        | QRdone (RSession x acc) => valid sched i pid x ∧ partly sched off x None acc
        | _ => True
        end
    | _ => True
    end.
  Lemma step_grows s e : (∃ l, q_pushed (step s e) = q_pushed s ++ l) ∧ q_removed s ≤ q_removed (step s e).
  Proof.
    destruct e as [k now]. destruct (qstep_cases s k now) as [[_ ->]|(t & t' & Et & H)]; [split; [exists []; by rewrite app_nil_r|lia]|].
    destruct (qeff_packets _ _ _ _ _ _ H) as [(E1 & E2 & E3)|[(id & b & u & -> & -> & E1 & E2 & E3)|(ks & th & n & -> & Hn & E1 & E2 & E3)]]; rewrite E2, E3.
    - split; [exists []; by rewrite app_nil_r|lia].
    - split; [by eexists|lia].
    - split; [exists []; by rewrite app_nil_r|lia].
  Qed.
  Lemma loaded_mono sched e pid x u : loaded sched pid x u → loaded (sched ++ [e]) pid x u.
  Proof. intros (s1 & s2 & -> & H). exists s1, (s2 ++ [e]). by rewrite app_assoc. Qed.
  Lemma valid_mono sched e i pid x : valid sched i pid x → valid (sched ++ [e]) i pid x.
  Proof. intros (s1 & s2 & u & now & -> & H & Hin & Hle). exists s1, (s2 ++ [e]), u, now. rewrite app_assoc. split_and!; try done. apply elem_of_app. by left. Qed.
  Lemma found_mono sched e off j p : found sched off j p → found (sched ++ [e]) off j p.
  Proof.
    intros (H1 & H2 & s1 & s2 & -> & H3). split; [|split; [done|exists s1, (s2 ++ [e]); by rewrite app_assoc]].
    rewrite qrun_snoc. destruct (step_grows (run s0 (s1 ++ s2)) e) as [[l ->] _]. by apply lookup_app_l_Some.
  Qed.
  Lemma partly_mono sched e off x bound acc : partly sched off x bound acc → partly (sched ++ [e]) off x bound acc.
  Proof.
    intros (j & p & m & Hf & Hj & Hm & Hb & Hsub). exists j, p, m. split; [by apply found_mono|]. rewrite qrun_snoc.
    destruct (step_grows (run s0 sched) e) as [[l ->] Hr]. split; [done|]. rewrite app_length. split; [lia|]. split.
    - intros n Hn. specialize (Hb n Hn). lia.
    - by rewrite take_app_le by done.
  Qed.
  Lemma rmem_mono sched e i t : rmem sched i t → rmem (sched ++ [e]) i t.
  Proof.
    destruct t as [|o pid off pc| |]; cbn; try done. destruct pc as [|x u| |x|x n|x n acc|x n acc|r]; try done.
    - apply loaded_mono.
    - apply valid_mono.
    - intros (H1 & j & p & H2 & H3). split; [by apply valid_mono|]. exists j, p. split; [by apply found_mono|]. rewrite qrun_snoc. destruct (step_grows (run s0 sched) e) as [_ Hr]. lia.
    - intros [H1 H2]. split; [by apply valid_mono|by apply partly_mono].
    - intros [H1 H2]. split; [by apply valid_mono|by apply partly_mono].
    - destruct r; try done. intros [H1 H2]. split; [by apply valid_mono|by apply partly_mono].
  Qed.
  Lemma partly_get sched off x n acc p : partly sched off x (Some n) acc → q_packets (run s0 sched) !! n = Some p →
    partly sched off x (Some (S n)) (if bool_decide (p_concerns (se_rooms x) p) then acc ++ [sp_data p] else acc).
  Proof.
    intros (j & p0 & m & Hf & Hj & Hm & Hb & Hsub) Hp. specialize (Hb n eq_refl). pose proof (qinv_run sched) as HI.
    rewrite (v_drop _ HI), lookup_drop in Hp. set (s := run s0 sched) in *. pose proof (lookup_lt_Some _ _ _ Hp) as Hlt.
    unfold partly; fold s. exists j, p0, (S (q_removed s + n)). split; [done|]. split; [lia|]. split; [lia|]. split; [intros ? [= <-]; lia|].
    rewrite (take_S_r _ _ _ Hp), drop_app_le by (rewrite take_length; lia). rewrite filter_app, fmap_app.
    assert (Hacc : acc `sublist_of` (sp_data <$> filter (p_concerns (se_rooms x)) (drop (S j) (take (q_removed s + n) (q_pushed s))))).
    { etrans; [exact Hsub|]. replace (q_removed s + n) with (m + (q_removed s + n - m)) by lia. rewrite <- take_take_drop, drop_app_le by (rewrite take_length; lia).
      rewrite filter_app, fmap_app. by apply sublist_inserts_r. }
    rewrite filter_cons, filter_nil. case_bool_decide as Hc.
    - rewrite decide_True by done. cbn. by apply sublist_app.
    - rewrite decide_False by done. cbn. by rewrite app_nil_r.
  Qed.
  Lemma rmem_run sched i t : q_threads (run s0 sched) !! i = Some t → rmem sched i t.
  Proof.
    revert i t. induction sched as [|[k now] sched IH] using rev_ind; intros i t Hi.
    - destruct Hstart as (Hf & _). rewrite Forall_lookup in Hf. apply Hf in Hi. destruct t; cbn in Hi |- *; destruct_and?; subst; done.
    - rewrite qrun_snoc in Hi. destruct (qstep_cases (run s0 sched) k now) as [[_ Hs]|(t0 & t' & Et & H)].
      + rewrite Hs in Hi. by apply rmem_mono, IH.
      + rewrite (qeff_threads _ _ _ _ _ _ Et H) in Hi. apply list_lookup_insert_Some in Hi as [(Hki & <- & _)|[_ Hi]]; [subst i|by apply rmem_mono, IH].
        pose proof (IH _ _ Et) as Em. inversion H as [| ? ? ? ? Hl | | | | | | ]; subst; try done; [by apply rmem_mono|].
        destruct t0 as [? ? pc0|o pid off pc|x0 pc0|]; [by destruct pc0, t'| |by destruct pc0, t'|by destruct t'].
        destruct t' as [|o' pid' off' pc'| |]; [done| |done|done]. destruct Hl as (-> & -> & -> & Hl).
        destruct pc as [|x u| |x|x n|x n acc|x n acc|r]; destruct pc' as [|x' u'| |x'|x' n'|x' n' acc'|x' n' acc'|r']; try done; try (by destruct r'); cbn in Em; cbn [rmem].
        * exists sched, [(k, now)]. done.
        * destruct Hl as [-> Hle]. destruct Em as (s1 & s2 & -> & Hl). exists s1, (s2 ++ [(k, now)]), u, now. rewrite app_assoc. split_and!; try done. apply elem_of_app. right. by apply elem_of_list_singleton.
        * destruct Hl as [-> Hfi]. split; [by apply valid_mono|]. destruct (find_index_spec _ _ _ Hfi) as (p1 & p & q & Hps & Hlen & Hid).
          pose proof (qinv_run sched) as HI. assert (Hlook : q_packets (run s0 sched) !! n' = Some p) by (rewrite Hps, <- Hlen; by apply list_lookup_middle).
          assert (Hpk : p ∈ q_packets (run s0 sched)) by (by eapply elem_of_list_lookup_2).
          rewrite (v_drop _ HI), lookup_drop in Hlook.
          exists (q_removed (run s0 sched) + n'), p. split; [apply found_mono; split; [done|]; split; [done|]; exists sched, []; by rewrite app_nil_r|].
          rewrite qrun_snoc. destruct (step_grows (run s0 sched) (k, now)) as [_ Hr]. lia.
        * destruct Hl as (-> & -> & -> & Hlt). destruct Em as (Hv & j & p & Hf & Hle). split; [by apply valid_mono|]. apply partly_mono.
          exists j, p, (S j). split; [done|]. split; [lia|]. pose proof (lookup_lt_Some _ _ _ (proj1 Hf)). split; [lia|]. split; [intros ? [= <-]; lia|].
          apply sublist_nil_l.
        * destruct Hl as (-> & -> & -> & Hlt). destruct Em as [Hv Hp]. split; [by apply valid_mono|by apply partly_mono].
        * destruct r'; try done. destruct Hl as (-> & -> & Hlt). destruct Em as [Hv (j & p & m & G1 & G2 & G3 & G4 & G5)]. split; [by apply valid_mono|apply partly_mono]. by exists j, p, m.
        * destruct Hl as (-> & -> & p & inc & Hp & Hinc & ->). destruct Em as [Hv Hpt]. split; [by apply valid_mono|apply partly_mono].
          rewrite include_concerns in Hinc; [| by eapply run_order | apply (v_proper _ (qinv_run sched)); rewrite (v_drop _ (qinv_run sched)) in Hp; by eapply elem_of_list_lookup_2; rewrite lookup_drop in Hp].
          injection Hinc as <-. by apply partly_get.
        * destruct r'; try done. destruct Hl as (-> & -> & Hlt). destruct Em as [Hv (j & p & m & G1 & G2 & G3 & G4 & G5)]. split; [by apply valid_mono|apply partly_mono]. by exists j, p, m.
  Qed.
  Theorem restore_sound sched i o pid off x missed : q_threads (run s0 sched) !! i = Some (QRestore o pid off (QRdone (RSession x missed))) →
    (∃ s1 s2 u now, sched = s1 ++ s2 ∧ q_sessions (run s0 s1) !! pid = Some (x, u) ∧ (i, now) ∈ s2 ∧ (now ≤ u + max)%Z) ∧
    (∃ s1 s2, sched = s1 ++ s2 ∧ off ∈ sp_id <$> q_packets (run s0 s1)) ∧
    ∃ l1 p l2, ps ++ q_log max s0 sched = l1 ++ p :: l2 ∧ sp_id p = off ∧ missed `sublist_of` (sp_data <$> filter (p_concerns (se_rooms x)) l2).
  Proof.
    intros H. apply rmem_run in H. cbn in H. destruct H as [Hv (j & p & m & (Hj & Hid & s1 & s2 & -> & Hin) & H2 & H3 & _ & H5)]. split; [done|]. split.
    - exists s1, s2. split; [done|]. apply elem_of_list_fmap. by exists p.
    - rewrite <- run_pushed0. exists (take j (q_pushed (run s0 (s1 ++ s2)))), p, (drop (S j) (q_pushed (run s0 (s1 ++ s2)))). split; [by rewrite take_drop_middle|]. split; [done|].
      etrans; [exact H5|]. set (l := q_pushed (run s0 (s1 ++ s2))) in *. rewrite <- (take_drop m l) at 2. rewrite drop_app_le by (rewrite take_length; lia).
      rewrite filter_app, fmap_app. by apply sublist_inserts_r.
  Qed.

  (** ** A restoration during which nothing is removed *)
  Lemma run_grows s1 s2 : (∃ l, q_pushed (run s0 (s1 ++ s2)) = q_pushed (run s0 s1) ++ l) ∧ q_removed (run s0 s1) ≤ q_removed (run s0 (s1 ++ s2)).
  Proof.
    induction s2 as [|e s2 IH] using rev_ind; [rewrite app_nil_r; split; [exists []; by rewrite app_nil_r|lia]|].
    rewrite app_assoc, qrun_snoc. destruct IH as [[l IH1] IH2]. destruct (step_grows (run s0 (s1 ++ s2)) e) as [[l' ->] Hr]. split; [|lia].
    exists (l ++ l'). by rewrite IH1, app_assoc.
  Qed.
  Lemma kept_packets s1 s2 : q_removed (run s0 (s1 ++ s2)) = q_removed (run s0 s1) → ∃ l, q_packets (run s0 (s1 ++ s2)) = q_packets (run s0 s1) ++ l.
  Proof.
    intros H. destruct (run_grows s1 s2) as [[l Hl] _]. exists l. rewrite (v_drop _ (qinv_run (s1 ++ s2))), (v_drop _ (qinv_run s1)), H, Hl.
    apply drop_app_le, (qinv_run s1).
  Qed.
  Definition whole (P Q : list spacket) (off : string) (x : session) (acc : list (list value)) (n : nat) : Prop :=
    ∃ k p, P !! k = Some p ∧ sp_id p = off ∧ k < n ∧ n ≤ length Q ∧ acc = sp_data <$> filter (p_concerns (se_rooms x)) (drop (S k) (take n Q)).
  Definition wmem (P Q : list spacket) (o : order) (pid off : string) (x : session) (t : qthread) : Prop :=
    ∃ pc, t = QRestore o pid off pc ∧
    match pc with
    | QRmake x' n => x' = x ∧ ∃ p, P !! n = Some p ∧ sp_id p = off
    | QRloop x' n acc => x' = x ∧ whole P Q off x acc n
    | QRget x' n acc => x' = x ∧ whole P Q off x acc n ∧ n < length Q
    | QRdone RFresh => off ∉ sp_id <$> P
    | QRdone (RSession x' acc) => x' = x ∧ ∃ n, length P ≤ n ∧ whole P Q off x acc n
    | _ => False
    end.
  Lemma whole_mono P Q l off x acc n : whole P Q off x acc n → whole P (Q ++ l) off x acc n.
  Proof. intros (k & p & H1 & H2 & H3 & H4 & ->). exists k, p. rewrite app_length. split_and!; try done; [lia|]. by rewrite take_app_le. Qed.
  Lemma wmem_mono P Q l o pid off x t : wmem P Q o pid off x t → wmem P (Q ++ l) o pid off x t.
  Proof.
    intros (pc & -> & H). exists pc. split; [done|]. destruct pc as [|x' u| |x'|x' n|x' n acc|x' n acc|r]; try done.
    - destruct H as [-> H]. split; [done|by apply whole_mono].
    - destruct H as (-> & H & Hn). split; [done|]. split; [by apply whole_mono|]. rewrite app_length. lia.
    - destruct r; try done. destruct H as (-> & n & Hn & H). split; [done|]. exists n. split; [done|by apply whole_mono].
  Qed.
  Lemma wmem_run s1 i t0 s2 o pid off x : q_threads (run s0 s1) !! i = Some (QRestore o pid off (QRfind x)) →
    q_removed (run s0 (s1 ++ (i, t0) :: s2)) = q_removed (run s0 s1) →
    ∃ t, q_threads (run s0 (s1 ++ (i, t0) :: s2)) !! i = Some t ∧ wmem (q_packets (run s0 s1)) (q_packets (run s0 (s1 ++ (i, t0) :: s2))) o pid off x t.
  Proof.
    intros Hi. assert (Hlt : i < length (q_threads (run s0 s1))) by (by eapply lookup_lt_Some). set (P := q_packets (run s0 s1)).
    induction s2 as [|[k now] s2 IH] using rev_ind.
    - intros _. rewrite qrun_snoc. unfold qstep. rewrite Hi. cbn [qset q_threads q_packets]. rewrite list_lookup_insert by done. eexists. split; [done|].
      eexists. split; [done|]. fold P. destruct (find_index off P) as [n|] eqn:Ef.
      + split; [done|]. destruct (find_index_spec _ _ _ Ef) as (p1 & p & q & -> & <- & Hid). exists p. split; [by apply list_lookup_middle|done].
      + by apply find_index_none.
    - intros Hr. replace (s1 ++ (i, t0) :: s2 ++ [(k, now)]) with ((s1 ++ (i, t0) :: s2) ++ [(k, now)]) in * by (by rewrite <- app_assoc).
      destruct (run_grows s1 ((i, t0) :: s2)) as [_ Hr1]. destruct (run_grows (s1 ++ (i, t0) :: s2) [(k, now)]) as [_ Hr2].
      assert (Hr0 : q_removed (run s0 (s1 ++ (i, t0) :: s2)) = q_removed (run s0 s1)) by lia.
      destruct (IH Hr0) as (t & Ht & Hw). clear IH. destruct (kept_packets s1 ((i, t0) :: s2) Hr0) as [l0 HQ0]. fold P in HQ0.
      assert (Hr3 : q_removed (run s0 ((s1 ++ (i, t0) :: s2) ++ [(k, now)])) = q_removed (run s0 (s1 ++ (i, t0) :: s2))) by lia.
      destruct (kept_packets _ _ Hr3) as [l HQ]. rewrite HQ. rewrite qrun_snoc in HQ |- *. clear Hr Hr1 Hr2 Hr3.
      set (sched := s1 ++ (i, t0) :: s2) in *. set (s := run s0 sched) in *.
      destruct (qstep_cases s k now) as [[_ Hs]|(t1 & t' & Et & H)]; [rewrite Hs; exists t; split; [done|by apply wmem_mono]|].
      rewrite (qeff_threads _ _ _ _ _ _ Et H). destruct (decide (k = i)) as [->|Hne].
      2:{ exists t. rewrite list_lookup_insert_ne by done. split; [done|by apply wmem_mono]. }
      rewrite Ht in Et. injection Et as <-. assert (i < length (q_threads s)) by (by eapply lookup_lt_Some). exists t'. split; [by apply list_lookup_insert|]. apply wmem_mono.
      destruct Hw as (pc & -> & Hw). inversion H as [| ? ? ? ? Hl | | | | | | ]; subst; try done; [by exists pc|].
      destruct t' as [|o' pid' off' pc'| |]; [done| |done|done]. destruct Hl as (-> & -> & -> & Hl). exists pc'. split; [done|].
      destruct pc as [|x1 u| |x1|x1 n|x1 n acc|x1 n acc|r]; destruct pc' as [|x' u'| |x'|x' n'|x' n' acc'|x' n' acc'|r']; try done; try (by destruct r').
      + destruct Hw as (-> & p & Hp & Hid). destruct Hl as (-> & -> & -> & Hn). split; [done|]. exists n, p. split_and!; [done|done|lia|lia|].
        rewrite drop_ge; [done|]. rewrite take_length. lia.
      + destruct r'; try done. destruct Hw as (-> & p & Hp & Hid). apply lookup_lt_Some in Hp. rewrite HQ0, app_length in Hl. lia.
      + destruct Hw as (-> & Hw). destruct Hl as (-> & -> & -> & Hn). done.
      + destruct r'; try done. destruct Hw as (-> & Hw). destruct Hl as (-> & -> & Hn). split; [done|]. exists n. split; [|done]. rewrite HQ0, app_length in Hn. lia.
      + destruct Hw as (-> & (k & p0 & G1 & G2 & G3 & G4 & ->) & Hn). destruct Hl as (-> & -> & p & inc & Hp & Hinc & ->). split; [done|].
        rewrite include_concerns in Hinc; [| by eapply (run_order sched) | apply (v_proper _ (qinv_run sched)); pose proof (v_drop _ (qinv_run sched)) as Hvd; fold s in Hvd |- *; rewrite Hvd, lookup_drop in Hp; by eapply elem_of_list_lookup_2].
        injection Hinc as <-. exists k, p0. split_and!; [done|done|lia|lia|]. rewrite (take_S_r _ _ _ Hp), drop_app_le by (rewrite take_length; lia).
        rewrite filter_app, fmap_app, filter_cons, filter_nil. case_bool_decide as Hc; [by rewrite decide_True|]. rewrite decide_False by done. cbn. by rewrite app_nil_r.
      + destruct r'; try done.
        * exfalso. destruct Hw as (-> & _ & Hn). destruct Hl as (-> & -> & Hno). apply lookup_ge_None in Hno. lia.
        * destruct Hl as (p & Hp & Hinc). rewrite include_concerns in Hinc; [done| by eapply (run_order sched) | apply (v_proper _ (qinv_run sched)); pose proof (v_drop _ (qinv_run sched)) as Hvd; fold s in Hvd |- *; rewrite Hvd, lookup_drop in Hp; by eapply elem_of_list_lookup_2].
  Qed.
  Lemma kept_removed s1 s2 new : q_packets (run s0 (s1 ++ s2)) = q_packets (run s0 s1) ++ new → q_packets (run s0 s1) ≠ [] → q_removed (run s0 (s1 ++ s2)) = q_removed (run s0 s1).
  Proof.
    intros Hq Hne. destruct (run_grows s1 s2) as [[l Hl] Hr]. destruct (q_packets (run s0 s1)) as [|p P] eqn:EP; [done|]. clear Hne.
    pose proof (qinv_run s1) as H1. pose proof (qinv_run (s1 ++ s2)) as H2.
    assert (Ha : q_pushed (run s0 s1) !! q_removed (run s0 s1) = Some p) by (rewrite <- (Nat.add_0_r (q_removed _)), <- lookup_drop, <- (v_drop _ H1), EP; done).
    assert (Hb : q_pushed (run s0 (s1 ++ s2)) !! q_removed (run s0 (s1 ++ s2)) = Some p) by (rewrite <- (Nat.add_0_r (q_removed _)), <- lookup_drop, <- (v_drop _ H2), Hq; done).
    assert (Hc : q_pushed (run s0 (s1 ++ s2)) !! q_removed (run s0 s1) = Some p) by (rewrite Hl; by apply lookup_app_l_Some).
    eapply (NoDup_lookup _ _ _ (sp_id p) (v_ids _ H2)); by rewrite list_lookup_fmap, ?Hb, ?Hc.
  Qed.
  Theorem restore_complete s1 i t0 s2 o pid off x r new : q_threads (run s0 s1) !! i = Some (QRestore o pid off (QRfind x)) →
    q_threads (run s0 (s1 ++ (i, t0) :: s2)) !! i = Some (QRestore o pid off (QRdone r)) →
    q_packets (run s0 (s1 ++ (i, t0) :: s2)) = q_packets (run s0 s1) ++ new →
    (off ∉ sp_id <$> q_packets (run s0 s1) ∧ r = RFresh) ∨
    ∃ l1 p l2 n, q_packets (run s0 s1) = l1 ++ p :: l2 ∧ sp_id p = off ∧ r = RSession x (sp_data <$> filter (p_concerns (se_rooms x)) (l2 ++ take n new)).
  Proof.
    intros Hi Hend Hq. destruct (q_packets (run s0 s1)) as [|p0 P0] eqn:EP.
    - left. split; [cbn; apply not_elem_of_nil|]. replace (s1 ++ (i, t0) :: s2) with ((s1 ++ [(i, t0)]) ++ s2) in Hend by (by rewrite <- app_assoc).
      assert (Hdone : q_threads (run s0 (s1 ++ [(i, t0)])) !! i = Some (QRestore o pid off (QRdone RFresh))).
      { rewrite qrun_snoc. unfold qstep. rewrite Hi, EP. cbn. apply list_lookup_insert. by eapply lookup_lt_Some. }
      assert (Hstay : q_threads (run s0 ((s1 ++ [(i, t0)]) ++ s2)) !! i = Some (QRestore o pid off (QRdone RFresh))).
      { clear Hend Hq. induction s2 as [|[k now] s2 IH] using rev_ind; [by rewrite app_nil_r|]. rewrite app_assoc, qrun_snoc. set (s := run s0 ((s1 ++ [(i, t0)]) ++ s2)) in *.
        destruct (qstep_cases s k now) as [[_ Hs]|(t1 & t' & Et & H)]; [by rewrite Hs|]. rewrite (qeff_threads _ _ _ _ _ _ Et H). destruct (decide (k = i)) as [->|Hne].
        - rewrite IH in Et. injection Et as <-. rewrite list_lookup_insert by (by eapply lookup_lt_Some). inversion H as [| ? ? ? ? Hl | | | | | | ]; subst; [done|].
          destruct t' as [|? ? ? pc'| |]; try done. by destruct Hl as (_ & _ & _ & ?).
        - by rewrite list_lookup_insert_ne. }
      rewrite Hstay in Hend. by injection Hend as <-.
    - assert (Hr : q_removed (run s0 (s1 ++ (i, t0) :: s2)) = q_removed (run s0 s1)) by (eapply kept_removed; [by rewrite EP|by rewrite EP]).
      destruct (wmem_run s1 i t0 s2 o pid off x Hi Hr) as (t & Ht & pc & Heq & Hw). rewrite Hend in Ht. injection Ht as <-. injection Heq as <-. rewrite EP, Hq in Hw.
      destruct r as [|x' acc|]; [left; done| |done]. right. destruct Hw as (-> & n & Hn & k & p & G1 & G2 & G3 & G4 & ->).
      exists (take k (p0 :: P0)), p, (drop (S k) (p0 :: P0)), (n - length (p0 :: P0)). split; [by rewrite take_drop_middle|]. split; [done|].
      do 3 f_equal. rewrite take_app_ge by done. apply drop_app_le. apply lookup_lt_Some in G1. lia.
  Qed.
  (** ** No loss *)
  Theorem restore_no_loss s1 s2 i t0 s3 o pid off x missed new k b0 j id b pc :
    q_threads (run s0 s1) !! k = Some (QBcast off b0 QBdone) → recoverable b0 →
    q_threads (run s0 s1) !! j = Some (QBcast id b QB0) → recoverable b →
    q_threads (run s0 (s1 ++ s2)) !! j = Some (QBcast id b pc) → pc = QBsend ∨ pc = QBdone →
    q_threads (run s0 (s1 ++ s2)) !! i = Some (QRestore o pid off (QRfind x)) →
    q_threads (run s0 (s1 ++ s2 ++ (i, t0) :: s3)) !! i = Some (QRestore o pid off (QRdone (RSession x missed))) →
    q_packets (run s0 (s1 ++ s2 ++ (i, t0) :: s3)) = q_packets (run s0 (s1 ++ s2)) ++ new →
    concerns (se_rooms x) b →
    bc_data b ++ [VStr id] ∈ missed.
  Proof.
    intros Hk Hb0 Hj Hb Hj2 Hpc Hi Hend Hq Hc. rewrite app_assoc in Hend, Hq.
    destruct (restore_complete (s1 ++ s2) i t0 s3 o pid off x _ new Hi Hend Hq) as [[_ ?]|(l1 & p & l2 & n & Hl & Hid & Hres)]; [done|]. injection Hres as ->.
    pose proof (qinv_run s1) as H1. pose proof (qinv_run (s1 ++ s2)) as H2. destruct (run_grows s1 s2) as [[l Hg] _].
    destruct (v_in _ H1 k off b0 QBdone Hk) as [u1 Hu1]; [by right|by apply storable_recoverable|].
    destruct (v_in _ H2 j id b pc Hj2) as [u2 Hu2]; [done|by apply storable_recoverable|]. set (pj := SPacket id u2 (bc_data b ++ [VStr id]) (bc_opts b)) in *.
    assert (Hnj : id ∉ sp_id <$> q_pushed (run s0 s1)).
    { intros (p' & Hp' & Hin)%elem_of_list_fmap. destruct (run_bcast _ _ _ _ _ Hj) as (Hj0 & _ & Hnot). destruct (v_from _ H1 p' Hin) as [Hps|(i' & id' & b' & pc' & u' & Hi' & Hpast & _ & ->)].
      - apply Hnot. apply elem_of_list_fmap. by exists p'.
      - cbn in Hp'. subst id'. destruct (run_bcast _ _ _ _ _ Hi') as (Hi0 & _). destruct Hstart as (_ & _ & _ & _ & Hinj). assert (i' = j) as -> by (by eapply Hinj).
        rewrite Hj in Hi'. injection Hi' as _ <-. by destruct Hpast. }
    assert (Hjl : pj ∈ l). { rewrite Hg in Hu2. apply elem_of_app in Hu2 as [Hu2|?]; [|done]. exfalso. apply Hnj. apply elem_of_list_fmap. by exists pj. }
    (* positions *)
    apply elem_of_list_lookup in Hu1 as [a Ha]. apply elem_of_list_lookup in Hjl as [c Hc']. pose proof (lookup_lt_Some _ _ _ Ha) as Hla.
    assert (Hpos : q_pushed (run s0 (s1 ++ s2)) !! (length (q_pushed (run s0 s1)) + c) = Some pj) by (rewrite Hg, lookup_app_r by lia; by replace (length (q_pushed (run s0 s1)) + c - length (q_pushed (run s0 s1))) with c by lia).
    assert (Hpa : q_pushed (run s0 (s1 ++ s2)) !! a = Some (SPacket off u1 (bc_data b0 ++ [VStr off]) (bc_opts b0))) by (rewrite Hg; by apply lookup_app_l_Some).
    assert (Hpp : q_pushed (run s0 (s1 ++ s2)) !! (q_removed (run s0 (s1 ++ s2)) + length l1) = Some p) by (rewrite <- lookup_drop, <- (v_drop _ H2), Hl; by apply list_lookup_middle).
    assert (Heq : q_removed (run s0 (s1 ++ s2)) + length l1 = a) by (eapply (NoDup_lookup _ _ _ off (v_ids _ H2)); rewrite list_lookup_fmap, ?Hpp, ?Hpa; cbn; by rewrite ?Hid).
    assert (Hin : pj ∈ l2).
    { set (d := length (q_pushed (run s0 s1)) + c - a - 1). apply elem_of_list_lookup_2 with d.
      assert (q_packets (run s0 (s1 ++ s2)) !! (length l1 + S d) = Some pj) as HH by (rewrite (v_drop _ H2), lookup_drop; rewrite <- Hpos; f_equal; lia).
      rewrite Hl, lookup_app_r in HH by lia. replace (length l1 + S d - length l1) with (S d) in HH by lia. done. }
    apply elem_of_list_fmap. exists pj. split; [done|]. apply elem_of_list_filter. split; [done|]. apply elem_of_app. by left.
  Qed.

  (** ** A saved session stays *)
  Definition kmem (pid : string) (u : Z) (t : qthread) : Prop :=
    match t with
    | QRestore _ pid' _ (QRtest _ u') => pid' = pid → u' = u
    | QRestore _ pid' _ QRdelete => pid' ≠ pid
    | QCleanup _ (QCvisit th _) | QCleanup _ (QCsplice th) => (th ≤ u)%Z
    | QCleanup _ (QCdelete th k _) => k ≠ pid ∧ (th ≤ u)%Z
    | QPersist x QP0 | QPersist x (QPstore _) => se_pid x ≠ pid
    | _ => True
    end.
  Theorem session_kept s1 s2 pid x u : q_sessions (run s0 s1) !! pid = Some (x, u) → (∀ i t, q_threads (run s0 s1) !! i = Some t → ¬ q_busy pid t) →
    Forall (λ e, (e.2 ≤ u + max)%Z) (s1 ++ s2) → q_sessions (run s0 (s1 ++ s2)) !! pid = Some (x, u).
  Proof.
    intros Hs Hb Ht. apply Forall_app in Ht as [Ht1 Ht2].
    assert (HK : q_sessions (run s0 (s1 ++ s2)) !! pid = Some (x, u) ∧ ∀ i t, q_threads (run s0 (s1 ++ s2)) !! i = Some t → kmem pid u t); [|by destruct HK].
    induction s2 as [|[k now] s2 IH] using rev_ind.
    - rewrite app_nil_r. split; [done|]. intros i t Hi. pose proof (qmem_run _ _ _ Hi) as Hm. specialize (Hb i t Hi). clear Hi.
      assert (Hth : ∀ th, (∃ e, e ∈ s1 ∧ th = (e.2 - max)%Z) → (th ≤ u)%Z). { intros th (e & He & ->). rewrite Forall_forall in Ht1. specialize (Ht1 e He). cbn in Ht1. lia. }
      destruct t as [|? ? ? pc|? pc|? pc]; [done|..]; destruct pc; cbn in Hb, Hm |- *; try done; auto.
    - apply Forall_app in Ht2 as [Ht2 Hnow]. rewrite Forall_singleton in Hnow. cbn in Hnow. destruct (IH Ht2) as [IH1 IH2]. clear IH.
      rewrite app_assoc, qrun_snoc. set (s := run s0 (s1 ++ s2)) in *.
      destruct (qstep_cases s k now) as [[_ ->]|(t1 & t' & Et & H)]; [done|]. pose proof (IH2 _ _ Et) as Hk.
      assert (Hnew : q_sessions (step s (k, now)) !! pid = Some (x, u) ∧ kmem pid u t').
      { revert H. generalize (step s (k, now)). intros s' H. inversion H as [| ? ? ? ? Hl | | | | | | ]; subst; try done.
        - split; [done|]. destruct t1 as [? ? pc|? ? ? pc|? pc|? pc]; destruct t' as [? ? pc'|? ? ? pc'|? pc'|? pc']; try done; destruct pc, pc'; cbn in Hk, Hl |- *; try done; destruct_and?; subst; try done; try lia.
          + intros ->. congruence.
          + intros ->. specialize (Hk eq_refl). lia.
          + split; [|done]. intros ->. match goal with Hx : ∃ _, _ |- _ => destruct Hx as (y & u' & Hy & Hlt) end. rewrite IH1 in Hy. injection Hy as <- <-. lia.
        - split; [|done]. cbn in Hk |- *. by rewrite lookup_delete_ne.
        - split; [|done]. cbn in Hk |- *. by rewrite lookup_insert_ne.
        - cbn in Hk |- *. destruct Hk as [Hk1 Hk2]. split; [|done]. by rewrite lookup_delete_ne. }
      split; [apply Hnew|]. intros i t Hi. rewrite (qeff_threads _ _ _ _ _ _ Et H) in Hi. apply list_lookup_insert_Some in Hi as [(_ & <- & _)|[_ Hi]]; [apply Hnew|by eapply IH2].
  Qed.

  (** ** Saving *)
  Lemma persist_time sched i x u : q_threads (run s0 sched) !! i = Some (QPersist x (QPstore u)) → (i, u) ∈ sched.
  Proof.
    revert i x u. induction sched as [|[k now] sched IH] using rev_ind; intros i x u Hi.
    - exfalso. destruct Hstart as (Hf & _). rewrite Forall_lookup in Hf. apply Hf in Hi. done.
    - rewrite qrun_snoc in Hi. destruct (qstep_cases (run s0 sched) k now) as [[_ Hs]|(t0 & t' & Et & H)].
      + rewrite Hs in Hi. apply elem_of_app. left. by eapply IH.
      + rewrite (qeff_threads _ _ _ _ _ _ Et H) in Hi. apply list_lookup_insert_Some in Hi as [(Hki & -> & _)|[_ Hi]]; [subst i|apply elem_of_app; left; by eapply IH].
        revert H. generalize (step (run s0 sched) (k, now)). intros s' H. inversion H as [| ? ? ? ? Hl | | | | | | ]; subst; [apply elem_of_app; left; by eapply IH|].
        destruct t0 as [? ? pc|? ? ? pc|? pc|? pc]; try done; destruct pc; try done. destruct Hl as [-> ->]. apply elem_of_app. right. by apply elem_of_list_singleton.
  Qed.
  Theorem session_saved sched i x : q_threads (run s0 sched) !! i = Some (QPersist x QPdone) →
    ∃ s1 t s2 u, sched = s1 ++ (i, t) :: s2 ∧ (i, u) ∈ s1 ∧ q_threads (run s0 s1) !! i ≠ Some (QPersist x QPdone) ∧ q_sessions (run s0 (s1 ++ [(i, t)])) !! se_pid x = Some (x, u).
  Proof.
    induction sched as [|[k now] sched IH] using rev_ind; intros Hi.
    - exfalso. destruct Hstart as (Hf & _). rewrite Forall_lookup in Hf. apply Hf in Hi. done.
    - assert (Hext : q_threads (run s0 sched) !! i = Some (QPersist x QPdone) → ∃ s1 t s2 u, sched ++ [(k, now)] = s1 ++ (i, t) :: s2 ∧ (i, u) ∈ s1 ∧ q_threads (run s0 s1) !! i ≠ Some (QPersist x QPdone) ∧ q_sessions (run s0 (s1 ++ [(i, t)])) !! se_pid x = Some (x, u)).
      { intros H. destruct (IH H) as (s1 & t & s2 & u & -> & H1 & H2 & H3). exists s1, t, (s2 ++ [(k, now)]), u. by rewrite <- app_assoc. }
      pose proof (qrun_snoc s0 sched (k, now)) as Hsn. rewrite Hsn in Hi. destruct (qstep_cases (run s0 sched) k now) as [[_ Hs]|(t0 & t' & Et & H)]; [rewrite Hs in Hi; by apply Hext|].
      rewrite (qeff_threads _ _ _ _ _ _ Et H) in Hi. apply list_lookup_insert_Some in Hi as [(Hki & -> & _)|[_ Hi]]; [subst i|by apply Hext].
      assert (Hcase : t0 = QPersist x QPdone ∨ ∃ u, t0 = QPersist x (QPstore u)).
      { revert H. generalize (step (run s0 sched) (k, now)). intros s' H. inversion H as [| ? ? ? ? Hl | | | | | | ]; subst; [by left| |right; by eexists].
        destruct t0 as [? ? pc|? ? ? pc|? pc|? pc]; try done; by destruct pc. }
      destruct Hcase as [->|[u ->]]; [by apply Hext|]. exists sched, now, [], u. split; [done|]. split; [by eapply persist_time|].
      split; [by rewrite Et|]. rewrite Hsn. unfold qstep. rewrite Et. cbn. apply lookup_insert.
  Qed.
  (** ** Handing over *)
  Lemma qdata_handed id b : qdata id b = q_handed id b.
  Proof. unfold qdata, q_handed. destruct (storable b) eqn:E; [rewrite decide_True by (by apply storable_recoverable)|rewrite decide_False by (rewrite <- storable_recoverable; congruence)]; done. Qed.
  Theorem handed_once sched : q_sent (run s0 sched) ≡ₚ q_returned (q_threads (run s0 sched)).
  Proof.
    induction sched as [|[k now] sched IH] using rev_ind.
    - cbn. destruct Hstart as (Hf & _). clear Hstart. induction Hf as [|t l Ht _ IH]; [done|]. cbn. destruct t; cbn in *; destruct_and?; subst; done.
    - rewrite qrun_snoc. set (s := run s0 sched) in *. destruct (qstep_cases s k now) as [[_ ->]|(t & t' & Et & H)]; [done|].
      rewrite (qeff_threads _ _ _ _ _ _ Et H). revert H. generalize (step s (k, now)). intros s' H.
      unfold q_returned in *. set (f := λ t, match t with QBcast id b QBdone => Some (q_handed id b) | _ => None end) in *.
      rewrite insert_take_drop by (by eapply lookup_lt_Some). rewrite <- (take_drop_middle _ _ _ Et), omap_app in IH. rewrite omap_app. cbn in IH |- *.
      assert (Hsame : f t' = f t → q_sent s' = q_sent s → q_sent s' ≡ₚ omap f (take k (q_threads s)) ++ match f t' with Some y => y :: omap f (drop (S k) (q_threads s)) | None => omap f (drop (S k) (q_threads s)) end).
      { intros -> ->. done. }
      inversion H as [| ? ? ? ? Hl | | | | | | ]; subst; try (by apply Hsame).
      + apply Hsame; [|done]. destruct t as [? ? pc|? ? ? pc|? pc|? pc]; destruct t' as [? ? pc'|? ? ? pc'|? pc'|? pc']; try done; destruct pc; try done; destruct pc'; try done.
      + cbn. rewrite IH. cbn. rewrite qdata_handed. rewrite Permutation_app_comm. cbn. by rewrite Permutation_middle.
  Qed.
End conc.
