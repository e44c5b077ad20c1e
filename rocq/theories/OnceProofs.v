(** Proofs about [Once.v]. *)
From Verif Require Import Base GoTypes Once AcksProofs.

Lemma oexec_ind (I : list olabel → ost → Prop) : I [] ost0 →
  (∀ ls l s s', I ls s → ostep l s = Some s' → I (ls ++ [l]) s') →
  ∀ ls s, oexec ls ost0 = Some s → I ls s.
Proof.
  intros H0 Hstep.
  assert (∀ ls2 ls1 s1 s, I ls1 s1 → oexec ls2 s1 = Some s → I (ls1 ++ ls2) s) as Hg.
  { induction ls2 as [|l ls2 IH]; intros ls1 s1 s H; simpl; [intros [= <-]; by rewrite app_nil_r|].
    destruct (ostep l s1) as [s2|] eqn:E; [|done]. intros Hr. rewrite (app_assoc ls1 [l] ls2 : ls1 ++ l :: ls2 = _).
    eapply IH; eauto. }
  intros ls s H. by apply (Hg ls [] ost0 s).
Qed.

(** Goroutines of event [e] inside the critical section; those about to send; those that have sent and not marked. *)
Definition in_crit (pc : opc) : bool := match pc with OCheck | OSend | OMark | OUnlock => true | _ => false end.
Record oinv (ls : list olabel) (s : ost) : Prop := {
  oi_ids : oc_id <$> o_cells s = oevents ls;
  oi_ev : ∀ t x, o_thr s !! t = Some x → OCall (ot_ev x) (ot_args x) ∈ ls ∧ ot_ev x < length (o_cells s);
  oi_lock : ∀ t x c, o_thr s !! t = Some x → in_crit (ot_pc x) = true → o_cells s !! ot_ev x = Some c → oc_lock c = Some t;
  oi_sent : ∀ e c, o_cells s !! e = Some c →
     length (sent_for e s) = if oc_done c then 1 else
       match oc_lock c ≫= (o_thr s !!.) with Some x => match ot_pc x with OMark => 1 | _ => 0 end | None => 0 end;
  oi_send : ∀ t x c, o_thr s !! t = Some x → ot_pc x = OSend ∨ ot_pc x = OMark → o_cells s !! ot_ev x = Some c → oc_done c = false;
  oi_own : ∀ e c t, o_cells s !! e = Some c → oc_lock c = Some t → ∃ x, o_thr s !! t = Some x ∧ ot_ev x = e ∧ in_crit (ot_pc x) = true;
  oi_done : ∀ t x c, o_thr s !! t = Some x → ot_pc x = OUnlock ∨ ot_pc x = ODone → o_cells s !! ot_ev x = Some c → oc_done c = true;
  oi_pk : ∀ p, p ∈ o_sent s → oevents ls !! p.1.1 = Some p.1.2 ∧ OCall p.1.1 p.2 ∈ ls }.

Lemma sent_snoc e s p cells thr : sent_for e (OSt cells thr (o_sent s ++ [p])) = sent_for e s ++ if decide (p.1.1 = e) then [p] else [].
Proof. unfold sent_for. simpl. by rewrite filter_app, filter_cons. Qed.
Lemma insert_same_eq {A} (l : list A) i j x y z : l !! i = Some x → <[i := y]> l !! j = Some z → (j = i ∧ z = y) ∨ (j ≠ i ∧ l !! j = Some z).
Proof. intros Hi. rewrite list_lookup_insert_Some. naive_solver. Qed.

Lemma oinv_run ls s t x c c' pc' sent' : oinv ls s → o_thr s !! t = Some x → o_cells s !! ot_ev x = Some c →
  oc_id c' = oc_id c →
  (in_crit pc' = true → oc_lock c' = Some t) →
  (oc_lock c' = oc_lock c ∨ oc_lock c = None ∨ oc_lock c = Some t) →
  (∀ u, oc_lock c' = Some u → oc_lock c = Some u ∨ u = t) →
  (oc_lock c' = Some t → in_crit pc' = true) →
  (oc_done c = true → oc_done c' = true) →
  (oc_done c' = true → oc_done c = true ∨ oc_lock c = Some t) →
  (pc' = OSend ∨ pc' = OMark → oc_done c' = false) →
  (pc' = OUnlock ∨ pc' = ODone → oc_done c' = true) →
  (sent' = o_sent s ∨ sent' = o_sent s ++ [(ot_ev x, oc_id c, ot_args x)]) →
  length (filter (λ p, p.1.1 = ot_ev x) sent') =
    (if oc_done c' then 1 else if decide (oc_lock c' = Some t) then match pc' with OMark => 1 | _ => 0 end
     else match oc_lock c' ≫= (o_thr s !!.) with Some x => match ot_pc x with OMark => 1 | _ => 0 end | None => 0 end) →
  oinv (ls ++ [ORun t]) (OSt (<[ot_ev x := c']> (o_cells s)) (<[t := with_pc x pc']> (o_thr s)) sent').
Proof.
  intros [I1 I2 I3 I4 I5 I6 I7 I8] Ht Ec Hid Hcrit Hlk Hlk2 Hlk3 Hd1 Hd2 Hs1 Hs2 Hsent Hcount.
  assert (∀ x l, x ∈ ls → x ∈ ls ++ [l]) as Hls by (intros; apply elem_of_app; auto).
  destruct (I2 t x Ht) as [Hx1 Hx2].
  assert (oevents (ls ++ [ORun t]) = oevents ls) as He. { unfold oevents. rewrite omap_app. simpl. by rewrite app_nil_r. }
  split; cbn [o_cells o_thr o_sent].
  - rewrite He, <- I1, list_fmap_insert, Hid. apply list_insert_id. by rewrite list_lookup_fmap, Ec.
  - intros u y Hy. rewrite insert_length. apply (insert_same_eq _ _ _ _ _ _ Ht) in Hy as [[-> ->]|[_ Hy]]; simpl; [auto|].
    destruct (I2 u y Hy). auto.
  - intros u y d Hy Hp Hd. apply (insert_same_eq _ _ _ _ _ _ Ht) in Hy as [[-> ->]|[Hne Hy]].
    + simpl in *. rewrite list_lookup_insert in Hd by done. injection Hd as <-. auto.
    + apply (insert_same_eq _ _ _ _ _ _ Ec) in Hd as [[E ->]|[Hne' Hd]]; [|by eapply I3].
      pose proof (I3 u y c Hy Hp) as Hu. rewrite E in Hu. specialize (Hu Ec). destruct Hlk as [->|[?|?]]; congruence.
  - intros e d Hd. apply (insert_same_eq _ _ _ _ _ _ Ec) in Hd as [[-> ->]|[Hne Hd]].
    + unfold sent_for. cbn [o_sent]. rewrite Hcount. destruct (oc_done c'); [done|].
      case_decide as Hl; [by rewrite Hl; simpl; rewrite list_lookup_insert by (by eapply lookup_lt_Some)|].
      destruct (oc_lock c') as [u|] eqn:Eu; [|done]. simpl. rewrite list_lookup_insert_ne by congruence. done.
    + assert (sent_for e (OSt (<[ot_ev x := c']> (o_cells s)) (<[t := with_pc x pc']> (o_thr s)) sent') = sent_for e s) as ->.
      { destruct Hsent as [->| ->]; [done|]. rewrite sent_snoc. simpl. rewrite decide_False by done. by rewrite app_nil_r. }
      rewrite (I4 e d Hd). destruct (oc_done d); [done|]. destruct (oc_lock d) as [u|] eqn:Eu; [|done]. simpl.
      destruct (I6 e d u Hd Eu) as (y&Hy&Hye&_). rewrite list_lookup_insert_ne; [done|]. intros <-. congruence.
  - intros u y d Hy Hp Hd. apply (insert_same_eq _ _ _ _ _ _ Ht) in Hy as [[-> ->]|[Hne Hy]].
    + simpl in *. rewrite list_lookup_insert in Hd by done. injection Hd as <-. auto.
    + apply (insert_same_eq _ _ _ _ _ _ Ec) in Hd as [[E ->]|[Hne' Hd]]; [|by eapply I5].
      pose proof (I5 u y c Hy Hp) as Hu. rewrite E in Hu. specialize (Hu Ec).
      pose proof (I3 u y c Hy) as Hv. rewrite E in Hv. destruct (oc_done c') eqn:Ed; [|done]. destruct (Hd2 eq_refl) as [?|Hl]; [congruence|].
      rewrite Hv in Hl; [congruence| |done]. by destruct Hp as [-> | ->].
  - intros e d u Hd Hl. apply (insert_same_eq _ _ _ _ _ _ Ec) in Hd as [[-> ->]|[Hne' Hd]].
    + destruct (decide (u = t)) as [->|Hne].
      * exists (with_pc x pc'). rewrite list_lookup_insert by (by eapply lookup_lt_Some). split; [done|]. split; [done|]. by apply Hlk3.
      * destruct (Hlk2 u Hl) as [Hl'|?]; [|done]. destruct (I6 _ _ _ Ec Hl') as (y&Hy&?). exists y.
        rewrite list_lookup_insert_ne by done. done.
    + destruct (I6 _ _ _ Hd Hl) as (y&Hy&Hye&?). exists y. rewrite list_lookup_insert_ne; [done|]. intros <-. congruence.
  - intros u y d Hy Hp Hd. apply (insert_same_eq _ _ _ _ _ _ Ht) in Hy as [[-> ->]|[Hne Hy]].
    + simpl in *. rewrite list_lookup_insert in Hd by done. injection Hd as <-. auto.
    + apply (insert_same_eq _ _ _ _ _ _ Ec) in Hd as [[E ->]|[Hne' Hd]]; [|by eapply I7].
      apply Hd1. eapply I7; [done|done|by rewrite E].
  - intros p Hp. rewrite He. assert (p ∈ o_sent s ∨ p = (ot_ev x, oc_id c, ot_args x)) as [Hp' | ->].
    { destruct Hsent as [->| ->]; [by left|]. by apply elem_of_app in Hp as [?|?%elem_of_list_singleton]; auto. }
    + destruct (I8 p Hp'). auto.
    + simpl. split; [|auto]. by rewrite <- I1, list_lookup_fmap, Ec.
Qed.

Lemma oinv_step ls l s s' : oinv ls s → ostep l s = Some s' → oinv (ls ++ [l]) s'.
Proof.
  intros Hi. pose proof Hi as [I1 I2 I3 I4 I5 I6 I7 I8].
  assert (∀ x l, x ∈ ls → x ∈ ls ++ [l]) as Hls by (intros; apply elem_of_app; auto).
  assert (∀ l i id, oevents ls !! i = Some id → oevents (ls ++ [l]) !! i = Some id) as Hev.
  { intros l' i id Hx. unfold oevents in *. rewrite omap_app. by apply lookup_app_l_Some. }
  destruct l as [id|e args|t]; cbn [ostep].
  - intros [= <-]. split; cbn [o_cells o_thr o_sent].
    + rewrite fmap_app, I1. unfold oevents. by rewrite omap_app.
    + intros t x Hx. destruct (I2 t x Hx). rewrite app_length. split; [auto|lia].
    + intros t x c Hx Hp Hc. eapply I3; [done|done|]. apply lookup_app_Some in Hc as [Hc|[Hge Hc]]; [done|].
      destruct (I2 t x Hx). lia.
    + intros e c Hc. apply lookup_app_Some in Hc as [Hc|[Hge Hc]]; [by apply I4|].
      apply list_lookup_singleton_Some in Hc as [He <-]. simpl.
      unfold sent_for. cbn [o_sent]. destruct (filter (λ p, p.1.1 = e) (o_sent s)) as [|p ps] eqn:E; [done|].
      assert (p ∈ filter (λ p, p.1.1 = e) (o_sent s)) as Hp by (rewrite E; by left).
      apply elem_of_list_filter in Hp as [Hp1 Hp2]. destruct (I8 p Hp2) as [Hp3 _].
      apply lookup_lt_Some in Hp3. rewrite <- I1, fmap_length in Hp3. lia.
    + intros t x c Hx Hp Hc. eapply I5; [done|done|]. apply lookup_app_Some in Hc as [Hc|[Hge Hc]]; [done|].
      destruct (I2 t x Hx). lia.
    + intros e c t Hc Hl. apply lookup_app_Some in Hc as [Hc|[Hge Hc]]; [by eapply I6|].
      by apply list_lookup_singleton_Some in Hc as [He <-].
    + intros t x c Hx Hp Hc. eapply I7; [done|done|]. apply lookup_app_Some in Hc as [Hc|[Hge Hc]]; [done|].
      destruct (I2 t x Hx). lia.
    + intros p Hp. destruct (I8 p Hp). auto.
  - case_decide as Hlt; [|done]. intros [= <-]. split; cbn [o_cells o_thr o_sent].
    + unfold oevents. rewrite omap_app. simpl. by rewrite app_nil_r.
    + intros t x Hx. apply lookup_app_Some in Hx as [Hx|[_ Hx]]; [destruct (I2 t x Hx); auto|].
      apply list_lookup_singleton_Some in Hx as [_ <-]. simpl. split; [|done]. apply elem_of_app. right. by left.
    + intros t x c Hx Hp Hc. apply lookup_app_Some in Hx as [Hx|[_ Hx]]; [by eapply I3|].
      by apply list_lookup_singleton_Some in Hx as [_ <-].
    + intros e' c Hc. unfold sent_for. cbn [o_sent]. fold (sent_for e' s). rewrite (I4 e' c Hc). destruct (oc_done c); [done|].
      destruct (oc_lock c) as [t|] eqn:El; [|done]. simpl. destruct (I6 e' c t Hc El) as (x&Hx&_).
      rewrite Hx. by rewrite (lookup_app_l_Some _ _ _ _ Hx).
    + intros t x c Hx Hp Hc. apply lookup_app_Some in Hx as [Hx|[_ Hx]]; [by eapply I5|].
      apply list_lookup_singleton_Some in Hx as [_ <-]. simpl in Hp. naive_solver.
    + intros e' c t Hc Hl. destruct (I6 e' c t Hc Hl) as (x&Hx&?). exists x. split; [|done]. by apply lookup_app_l_Some.
    + intros t x c Hx Hp Hc. apply lookup_app_Some in Hx as [Hx|[_ Hx]]; [by eapply I7|].
      apply list_lookup_singleton_Some in Hx as [_ <-]. simpl in Hp. naive_solver.
    + intros p Hp. destruct (I8 p Hp). auto.
  - destruct (o_thr s !! t) as [x|] eqn:Ht; [|done]. unfold ostep_thr.
    destruct (o_cells s !! ot_ev x) as [c|] eqn:Ec; [|done].
    pose proof (I3 t x c Ht) as I3t. pose proof (I5 t x c Ht) as I5t. pose proof (I7 t x c Ht) as I7t. pose proof (I4 _ c Ec) as I4c.
    unfold sent_for in I4c.
    assert (∀ pc' sent', oinv (ls ++ [ORun t]) (OSt (<[ot_ev x := c]> (o_cells s)) (<[t := with_pc x pc']> (o_thr s)) sent') →
      oinv (ls ++ [ORun t]) (OSt (o_cells s) (<[t := with_pc x pc']> (o_thr s)) sent')) as Hsame.
    { intros pc' sent' H. by rewrite list_insert_id in H. }
    assert (oc_lock c ≠ Some t → in_crit (ot_pc x) = true → False) as Hown. { intros H1 H2. by rewrite (I3t H2 Ec) in H1. }
    assert (oc_lock c = Some t → in_crit (ot_pc x) = true) as Hown2.
    { intros H1. destruct (I6 _ _ _ Ec H1) as (y&Hy&_&?). congruence. }
    unfold o_goto, o_cell. cbn [o_cells o_thr o_sent].
    destruct (ot_pc x) eqn:Epc; cbn [in_crit] in *.
    + intros [= <-]. apply Hsame. assert (oc_lock c ≠ Some t) by (intros H; by specialize (Hown2 H)).
      destruct (oc_done c) eqn:Ed; eapply oinv_run; rewrite ?Ed; try done; auto; try (intros [?|?]; done).
      rewrite decide_False by done. done.
    + destruct (oc_lock c) eqn:El; [done|]. intros [= <-]. eapply oinv_run; simpl; try done; auto; try (intros [?|?]; done).
      * intros u [= <-]. auto.
      * rewrite decide_True by done. simpl in I4c. done.
    + specialize (I3t eq_refl Ec). intros [= <-]. apply Hsame. rewrite I3t in I4c. simpl in I4c. rewrite Ht, Epc in I4c.
      destruct (oc_done c) eqn:Ed; eapply oinv_run; rewrite ?Ed, ?I3t; try done; auto; try (intros [?|?]; done).
      by rewrite decide_True.
    + specialize (I3t eq_refl Ec). specialize (I5t (or_introl eq_refl) Ec). intros [= <-]. apply Hsame. rewrite I3t, I5t in I4c. simpl in I4c. rewrite Ht, Epc in I4c.
      eapply oinv_run; rewrite ?I5t, ?I3t; try done; auto; try (intros [?|?]; done).
      rewrite decide_True by done. cbn [o_sent]. rewrite filter_length_snoc, I4c. simpl. by rewrite decide_True.
    + specialize (I3t eq_refl Ec). specialize (I5t (or_intror eq_refl) Ec). intros [= <-]. rewrite I3t, I5t in I4c. simpl in I4c. rewrite Ht, Epc in I4c.
      eapply oinv_run; simpl; rewrite ?I5t, ?I3t; try done; auto; try (intros [?|?]; done).
    + specialize (I3t eq_refl Ec). specialize (I7t (or_introl eq_refl) Ec). intros [= <-]. rewrite I7t in I4c.
      eapply oinv_run; simpl; rewrite ?I7t, ?I3t; try done; auto; try (intros [?|?]; done).
    + done.
Qed.
Lemma oinv0 : oinv [] ost0.
Proof. split; simpl; try done. intros p Hp. by apply elem_of_nil in Hp. Qed.
Lemma oexec_inv ls s : oexec ls ost0 = Some s → oinv ls s.
Proof. apply (oexec_ind oinv); [apply oinv0|]. intros. by eapply oinv_step. Qed.

Lemma once_c12 ls s e : oexec ls ost0 = Some s →
  length (sent_for e s) ≤ 1 ∧
  (∀ p, p ∈ sent_for e s → oevents ls !! e = Some p.1.2 ∧ OCall e p.2 ∈ ls) ∧
  ((∃ t x, o_thr s !! t = Some x ∧ ot_ev x = e ∧ ot_pc x = ODone) → length (sent_for e s) = 1).
Proof.
  intros H. pose proof (oexec_inv _ _ H) as Hi. destruct Hi as [I1 I2 I3 I4 I5 I6 I7 I8]. split; [|split].
  - destruct (o_cells s !! e) as [c|] eqn:Ec.
    + rewrite (I4 e c Ec). repeat case_match; lia.
    + unfold sent_for. destruct (filter (λ p, p.1.1 = e) (o_sent s)) as [|p ps] eqn:E; [simpl; lia|].
      assert (p ∈ filter (λ p, p.1.1 = e) (o_sent s)) as Hp by (rewrite E; by left).
      apply elem_of_list_filter in Hp as [Hp1 Hp2]. destruct (I8 p Hp2) as [Hp3 _].
      apply lookup_lt_Some in Hp3. rewrite <- I1, fmap_length in Hp3. apply lookup_ge_None in Ec. lia.
  - intros p Hp. apply elem_of_list_filter in Hp as [Hp1 Hp2]. destruct (I8 p Hp2) as [Hp3 Hp4]. rewrite Hp1 in *. done.
  - intros (t&x&Hx&<-&Hpc). destruct (I2 t x Hx) as [_ Hlt]. apply lookup_lt_is_Some in Hlt as [c Hc].
    rewrite (I4 _ c Hc), (I7 t x c Hx); auto.
Qed.
