From Verif Require Import Base GoTypes Rooms RoomsSpec RoomsProofs Adapter Session SessionSpec SessionProofs Recovery RecoverySpec RecoveryProofs.

Lemma reasons_listed r : r ∈ recoverable_reasons ↔ r ∈ ["transport error"; "transport close"; "forced close"; "ping timeout"; "server shutting down"; "forced server close"].
Proof. unfold recoverable_reasons. rewrite !elem_of_cons, elem_of_nil. set_solver. Qed.
Lemma recoverable_iff c : reason_of c ∈ recoverable_reasons ↔ recoverable_cause c.
Proof. destruct c; [| | | |apply reasons_listed]; rewrite reasons_listed, !elem_of_cons, elem_of_nil; cbn; naive_solver. Qed.
(** ** The calls made to the store *)
Definition calls (e : Z * rop) (s : rstate) : list (Z * sop) :=
  match e.2 with
  | RCreate c (Some (p, off)) _ _ o1 _ => [(e.1, SRestore o1 p off)]
  | REmit pk b _ => [(e.1, SBcast pk b)]
  | RClose k c o =>
      match r_heap s !! k with
      | Some a => if rk_connected a && bool_decide (reason_of c ∈ recoverable_reasons)
                  then [(e.1, SPersist (Session (rk_id a) (rk_pid a) (rooms_of (r_reg s) (rk_id a)) (rk_data a)))] else []
      | None => []
      end
  | RTick => [(e.1, SCleanup)]
  | _ => []
  end.
Definition rtrace (max : Z) (h : list (Z * rop)) : list (Z * sop) :=
  (foldl (λ acc e, (rstep true e acc.1, acc.2 ++ calls e acc.1)) (rinit max, []) h).2.
Lemma rtrace_snoc max h e : rtrace max (h ++ [e]) = rtrace max h ++ calls e (rrun true max h).
Proof.
  unfold rtrace. rewrite foldl_app. cbn [foldl snd]. f_equal. f_equal. clear e.
  induction h as [|e h IH] using rev_ind; [done|]. rewrite foldl_app. cbn [foldl fst]. by rewrite IH, rrun_snoc.
Qed.
Lemma rtrace_app max h1 h2 : ∃ l, rtrace max (h1 ++ h2) = rtrace max h1 ++ l.
Proof.
  induction h2 as [|e h2 [l IH]] using rev_ind; [exists []; by rewrite !app_nil_r|]. rewrite app_assoc, rtrace_snoc, IH, <- app_assoc. eauto.
Qed.
Lemma calls_time e s x : x ∈ calls e s → x.1 = e.1.
Proof.
  unfold calls. destruct e.2 as [c [[p off]|] id pid o1 o2|k|k o|k rs|k r|k v|pk b os|k c o|]; try (by intros ?%elem_of_nil); try (by intros ->%elem_of_list_singleton).
  destruct (r_heap s !! k) as [a|]; [|by intros ?%elem_of_nil]. destruct (_ && _); [by intros ->%elem_of_list_singleton|by intros ?%elem_of_nil].
Qed.
Lemma calls_length e s : calls e s = [] ∨ ∃ x, calls e s = [x].
Proof.
  unfold calls. destruct e.2 as [c [[p off]|] id pid o1 o2|k|k o|k rs|k r|k v|pk b os|k c o|]; eauto.
  destruct (r_heap s !! k) as [a|]; eauto. destruct (_ && _); eauto.
Qed.
Lemma rtrace_in max h x : x ∈ rtrace max h → ∃ h1 e h2, h = h1 ++ e :: h2 ∧ x ∈ calls e (rrun true max h1).
Proof.
  induction h as [|e h IH] using rev_ind; [by intros ?%elem_of_nil|]. rewrite rtrace_snoc, elem_of_app. intros [Hx|Hx].
  - destruct (IH Hx) as (h1&e'&h2&->&?). exists h1, e', (h2 ++ [e]). by rewrite <- app_assoc.
  - by exists h, e, [].
Qed.
Definition rtimed (h : list (Z * rop)) (now : Z) : Prop :=
  (∀ e, e ∈ h → (e.1 ≤ now)%Z) ∧ ∀ h1 t op h2, h = h1 ++ (t, op) :: h2 → ∀ e, e ∈ h2 → (t ≤ e.1)%Z.
Lemma rtrace_times max h x : x ∈ rtrace max h → ∃ e, e ∈ h ∧ x.1 = e.1.
Proof. intros (h1&e&h2&->&Hx)%rtrace_in. exists e. split; [apply elem_of_app; right; by left|by eapply calls_time]. Qed.
Lemma rtrace_timed max h now : rtimed h now → timed (rtrace max h) now.
Proof.
  revert now. induction h as [|e h IH] using rev_ind; intros now [H1 H2]; [by intros [] ? ? ? ?|].
  assert (timed (rtrace max h) e.1) as Ht.
  { apply IH. split.
    - intros x Hx. apply elem_of_list_split in Hx as (h1&h2&->). destruct x as [u op]. apply (H2 h1 u op (h2 ++ [e])); [by rewrite <- app_assoc|]. apply elem_of_app. right. by left.
    - intros h1 t op h2 -> x Hx. apply (H2 h1 t op (h2 ++ [e])); [by rewrite <- app_assoc|]. apply elem_of_app. by left. }
  assert (e.1 ≤ now)%Z as Hle. { apply H1, elem_of_app. right. by left. }
  rewrite rtrace_snoc. destruct (calls_length e (rrun true max h)) as [->|[x Ex]].
  - rewrite app_nil_r. intros h1 t op h2 E. destruct (Ht h1 t op h2 E). split; [lia|done].
  - assert (x.1 = e.1) as Hx. { apply (calls_time e (rrun true max h)). rewrite Ex. by left. } rewrite Ex.
    intros h1 t op h2 E. destruct h2 as [|y h2 _] using rev_ind.
    + apply app_inj_tail in E as [_ ->]. simpl in Hx. split; [lia|]. intros y Hy. by apply elem_of_nil in Hy.
    + rewrite app_comm_cons, app_assoc in E. apply app_inj_tail in E as [E ->]. destruct (Ht h1 t op h2 E) as [Ha Hb]. split; [lia|].
      intros z [Hz| ->%elem_of_list_singleton]%elem_of_app; [auto|lia].
Qed.
Lemma store_trace max h : env_ok true max h → polite true max h → r_store (rrun true max h) = srun max (rtrace max h).
Proof.
  induction h as [|e h IH] using rev_ind; intros He Hp; [done|]. pose proof (env_ok_snoc _ _ _ _ He) as [He1 He2]. apply polite_app in Hp.
  pose proof (rrun_inv _ _ He1 Hp) as Hi. specialize (IH He1 Hp). rewrite rrun_snoc, rtrace_snoc. set (s := rrun true max h) in *. destruct e as [t op].
  unfold rstep, calls. cbn [fst snd]. destruct op as [c auth id pid o1 o2|k|k o|k rs|k r|k v|pk b os|k c o|].
  - unfold create. destruct auth as [[p off]|]; [|by rewrite app_nil_r]. rewrite srun_snoc. unfold sstep. cbn [fst snd]. rewrite <- IH.
    destruct (restore o1 t p off (r_store s)) as [st r]. destruct r as [|x l|]; try done. unfold create_recovered.
    cbn [send set_heap r_store]. by destruct (joins_frame (RSock (se_sid x) (se_pid x) c (se_data x) true false true) (o2 (se_rooms x)) (set_store st s)) as (->&_).
  - rewrite app_nil_r, <- IH. destruct (r_heap s !! k) as [a|]; [|done]. destruct (_ && _); [|done]. unfold finish. cbn [send r_store].
    by match goal with |- r_store (join ?a ?rs ?s) = _ => destruct (join_frame a rs s) as (->&_) end.
  - rewrite app_nil_r, <- IH. destruct (r_heap s !! k) as [a|]; [|done]. by destruct (_ && _).
  - rewrite app_nil_r, <- IH. destruct (r_heap s !! k) as [a|]; [|done]. by destruct (join_frame a rs s) as (->&_).
  - rewrite app_nil_r, <- IH. by destruct (r_heap s !! k) as [a|].
  - rewrite app_nil_r, <- IH. by destruct (r_heap s !! k) as [a|].
  - destruct He2 as [Hb Ho]. destruct (emit_frame true t pk b os s Hb Ho Hi) as (->&_). by rewrite srun_snoc, <- IH.
  - destruct (r_heap s !! k) as [a|]; [|by rewrite app_nil_r]. destruct (rk_connected a); [|by rewrite app_nil_r]. unfold onclose. cbn [andb].
    destruct (bool_decide (reason_of c ∈ recoverable_reasons)).
    + rewrite srun_snoc, <- IH. by destruct c.
    + rewrite app_nil_r, <- IH. by destruct c.
  - by rewrite srun_snoc, <- IH.
Qed.
Lemma calls_emissions e s : broadcasts (calls e s) = emissions [e].
Proof.
  unfold calls, emissions, broadcasts. destruct e as [t [c [[p off]|] id pid o1 o2|k|k o|k rs|k r|k v|pk b os|k c o|]]; try done.
  cbn [fst snd]. destruct (r_heap s !! k) as [a|]; [|done]. by destruct (_ && _).
Qed.
Lemma emissions_app h1 h2 : emissions (h1 ++ h2) = emissions h1 ++ emissions h2.
Proof. apply omap_app. Qed.
Lemma rtrace_emissions max h : broadcasts (rtrace max h) = emissions h.
Proof. induction h as [|e h IH] using rev_ind; [done|]. by rewrite rtrace_snoc, broadcasts_app, emissions_app, IH, calls_emissions. Qed.
Lemma rtrace_proper max h : env_ok true max h → all_proper (rtrace max h).
Proof.
  intros He t pk b (h1&e&h2&->&Hx)%rtrace_in. destruct e as [u op]. pose proof (env_ops _ _ _ He h1 u op h2 eq_refl) as Ho.
  unfold calls in Hx. cbn [fst snd] in Hx. destruct op as [c [[p off]|] id pid o1 o2|k|k o|k rs|k r|k v|pk' b' os|k c o|]; try (by apply elem_of_nil in Hx); try (by apply elem_of_list_singleton in Hx).
  - apply elem_of_list_singleton in Hx as [= -> -> ->]. apply Ho.
  - destruct (r_heap _ !! k) as [a|]; [|by apply elem_of_nil in Hx]. destruct (_ && _); [by apply elem_of_list_singleton in Hx|by apply elem_of_nil in Hx].
Qed.
Lemma calls_persist e s t x : (t, SPersist x) ∈ calls e s → ∃ k c o a, e = (t, RClose k c o) ∧ r_heap s !! k = Some a ∧ rk_connected a = true ∧ recoverable_cause c ∧
  x = Session (rk_id a) (rk_pid a) (rooms_of (r_reg s) (rk_id a)) (rk_data a).
Proof.
  unfold calls. destruct e as [u [c [[p off]|] id pid o1 o2|k|k o|k rs|k r|k v|pk' b' os|k c o|]]; cbn [fst snd]; intros Hx; try (by apply elem_of_nil in Hx); try (by apply elem_of_list_singleton in Hx).
  destruct (r_heap s !! k) as [a|] eqn:Ha; [|by apply elem_of_nil in Hx]. destruct (rk_connected a) eqn:Hc; [|by apply elem_of_nil in Hx].
  destruct (bool_decide _) eqn:Hb; [|by apply elem_of_nil in Hx]. apply bool_decide_eq_true, recoverable_iff in Hb. apply elem_of_list_singleton in Hx as [= -> ->]. by exists k, c, o, a.
Qed.
Lemma saves_calls max h e k a : saves true max h e k a → calls e (rrun true max h) = [(e.1, SPersist (Session (rk_id a) (rk_pid a) (rooms_of (r_reg (rrun true max h)) (rk_id a)) (rk_data a)))].
Proof. intros (c&o&E&Ha&Hc&Hr). unfold calls. rewrite E, Ha, Hc. by rewrite bool_decide_eq_true_2 by by apply recoverable_iff. Qed.
Lemma saved_history max h pid x t : saved (rtrace max h) pid x t → ∃ h1 e k a h2, last_saved true max h pid h1 e k a h2 ∧ e.1 = t ∧
  x = Session (rk_id a) (rk_pid a) (rooms_of (r_reg (rrun true max h1)) (rk_id a)) (rk_data a).
Proof.
  induction h as [|e h IH] using rev_ind; [intros (h1&h2&E&_); by destruct h1|]. rewrite rtrace_snoc.
  destruct (calls_length e (rrun true max h)) as [E|[y Ey]].
  - rewrite E, app_nil_r. intros Hs. destruct (IH Hs) as (h1&e0&k&a&h2&(->&H1&H2&H3)&H4&H5). exists h1, e0, k, a, (h2 ++ [e]). split; [|done]. split; [by rewrite <- app_assoc|].
    split; [done|]. split; [done|]. intros h3 e' h4 k' a' E' Hs'. destruct h4 as [|z h4 _] using rev_ind.
    + apply app_inj_tail in E' as [-> ->]. apply saves_calls in Hs'. congruence.
    + rewrite app_comm_cons, app_assoc in E'. apply app_inj_tail in E' as [-> ->]. by eapply H3.
  - rewrite Ey, saved_snoc. intros [[-> Hp]|[Hs Hne]].
    + destruct (calls_persist e (rrun true max h) t x) as (k&c&o&a&->&Ha&Hc&Hr&->); [rewrite Ey; by left|]. exists h, (t, RClose k c o), k, a, [].
      split; [|done]. split; [done|]. split; [by exists c, o|]. split; [done|]. intros h3 e' h4 ?? E. by destruct h3.
    + destruct (IH Hs) as (h1&e0&k&a&h2&(->&H1&H2&H3)&H4&H5). exists h1, e0, k, a, (h2 ++ [e]). split; [|done]. split; [by rewrite <- app_assoc|].
      split; [done|]. split; [done|]. intros h3 e' h4 k' a' E' Hs'. destruct h4 as [|z h4 _] using rev_ind.
      * apply app_inj_tail in E' as [-> ->]. apply saves_calls in Hs'. rewrite Hs' in Ey. injection Ey as <-. by specialize (Hne _ _ eq_refl).
      * rewrite app_comm_cons, app_assoc in E'. apply app_inj_tail in E' as [-> ->]. by eapply H3.
Qed.

(** ** C30 *)
Lemma env_rtimed csr max h t op : env_ok csr max (h ++ [(t, op)]) → rtimed h t.
Proof.
  intros He. split.
  - intros [u op'] (h1&h2&->)%elem_of_list_split. apply (env_clock _ _ _ He h1 u op' (h2 ++ [(t, op)])) with (e := (t, op)); [by rewrite <- app_assoc|]. apply elem_of_app. right. by left.
  - apply env_ok_app in He. apply He.
Qed.
Lemma rooms_of_closed s pid i : rinv s → (∃ k a, r_heap s !! k = Some a ∧ rk_id a = i ∧ rk_pid a = pid) → (∀ a, a ∈ r_heap s → rk_pid a = pid → rk_can_join a = false) → rooms_of (r_reg s) i = ∅.
Proof.
  intros Hi (k&a&Ha&Hid&Hpid) Hcl. unfold rooms_of. destruct (rg_sids (r_reg s) !! i) as [rs|] eqn:E; [|done]. exfalso.
  destruct (ri_sids _ Hi i) as (j&b&Hb&Hbi&Hbj); [by rewrite E|]. rewrite Hcl in Hbj; [done|by eapply elem_of_list_lookup_2|].
  rewrite <- Hpid. apply (ri_pair _ Hi _ _ _ _ Hb Ha). congruence.
Qed.
Lemma create_case max h t c pid off id p o1 o2 : let e := (t, RCreate c (Some (pid, off)) id p o1 o2) in
  env_ok true max (h ++ [e]) → polite true max (h ++ [e]) →
  let s := rrun true max h in
  let s' := rrun true max (h ++ [e]) in
  (∃ st, s' = create_fresh true c id p (set_store st s)) ∨
  (∃ x l, (restore o1 t pid off (srun max (rtrace max h))).2 = RSession x l ∧ s' = create_recovered c x l o2 s ∧ se_pid x = pid ∧
     (∃ k a, r_heap s !! k = Some a ∧ rk_id a = se_sid x ∧ rk_pid a = pid)).
Proof.
  intros e He Hp s s'. pose proof (env_ok_app _ _ _ _ He) as He1. pose proof (polite_app _ _ _ _ Hp) as Hp1. pose proof (rrun_inv _ _ He1 Hp1) as Hi.
  pose proof (env_rtimed _ _ _ _ _ He) as Ht. pose proof (rtrace_timed max _ _ Ht) as Htt. pose proof (env_ok_snoc _ _ _ _ He) as [_ (O1&O2&_)].
  pose proof (store_trace _ _ He1 Hp1) as Est. unfold s'. rewrite rrun_snoc. unfold rstep, e. cbn [fst snd]. unfold create. fold s. fold s in Est, Hi. rewrite Est.
  destruct (recovered_iff max (rtrace max h) t o1 pid off O1 Htt (rtrace_proper _ _ He1)) as [_ Hno].
  destruct (restore o1 t pid off (srun max (rtrace max h))) as [st r] eqn:E. cbn [snd] in Hno. destruct Hno as [(x&l&->)| ->]; [|left; eauto].
  right. exists x, l. split; [done|]. destruct (restore_session _ _ _ _ _ _ _ _ E) as [-> [u Hu]]. split; [rewrite <- Est; by destruct s|].
  rewrite <- Est in Hu. apply (ri_sess _ Hi _ _ _ Hu).
Qed.
Lemma recovered_state max h t c pid off id p o1 o2 : let e := (t, RCreate c (Some (pid, off)) id p o1 o2) in
  env_ok true max (h ++ [e]) → polite true max (h ++ [e]) →
  let s := rrun true max h in
  let s' := rrun true max (h ++ [e]) in
  ∀ a', r_heap s' !! length (r_heap s) = Some a' → rk_recovered a' = true →
  ∃ h1 e1 k a h2, last_saved true max h pid h1 e1 k a h2 ∧
    rk_id a' = rk_id a ∧ rk_pid a' = rk_pid a ∧ rk_data a' = rk_data a ∧
    rooms_of (r_reg s') (rk_id a) = rooms_of (r_reg (rrun true max h1)) (rk_id a).
Proof.
  intros e He Hp s s' a' Ha' Hr. pose proof (env_ok_app _ _ _ _ He) as He1. pose proof (polite_app _ _ _ _ Hp) as Hp1. pose proof (rrun_inv _ _ He1 Hp1) as Hi. fold s in Hi.
  pose proof (rtrace_timed max _ _ (env_rtimed _ _ _ _ _ He)) as Htt. pose proof (env_ok_snoc _ _ _ _ He) as [_ (O1&O2&_)].
  destruct (create_case max h t c pid off id p o1 o2 He Hp) as [[st E]|(x&l&Er&E&Ex&Hex)]; fold s in E; fold e in E; fold s' in E; rewrite E in Ha'.
  - cbn in Ha'. rewrite list_lookup_middle in Ha' by done. injection Ha' as <-. done.
  - unfold create_recovered in E, Ha'. set (a0 := RSock (se_sid x) (se_pid x) c (se_data x) true false true) in *.
    destruct (joins_frame a0 (o2 (se_rooms x)) s) as (_&_&F&_). destruct (joins_reg a0 (o2 (se_rooms x)) s) as (_&J2&_); [done|apply Hi|].
    cbn [send set_heap r_heap] in Ha'. rewrite F in Ha'. rewrite list_lookup_middle in Ha' by done. injection Ha' as <-.
    destruct (replay_exact max (rtrace max h) t o1 pid off x l) as [[u Hs] _]; [done|done|by apply rtrace_proper|unfold ids_distinct; rewrite rtrace_emissions; apply He1|done|].
    destruct (saved_history _ _ _ _ _ Hs) as (h1&e1&k&a&h2&Hl&_&->). exists h1, e1, k, a, h2. split; [done|]. split; [done|]. split; [done|]. split; [done|].
    apply set_eq. intros r. cbn [se_sid se_rooms se_pid] in *. rewrite E. cbn [send set_heap r_reg]. rewrite J2.
    rewrite (rooms_of_closed s pid (rk_id a)) by (done || (intros b Hb Hbp; by eapply (Hp h))). rewrite (order_elem _ _ _ O2). set_solver.
Qed.
Lemma connected_unique max h k1 k2 a1 a2 : env_ok true max h → polite true max h → let s := rrun true max h in
  r_heap s !! k1 = Some a1 → r_heap s !! k2 = Some a2 → rk_connected a1 = true → rk_connected a2 = true → rk_id a1 = rk_id a2 → k1 = k2.
Proof. intros He Hp s H1 H2 C1 C2 E. pose proof (rrun_inv _ _ He Hp) as Hi. eapply (ri_alive _ Hi); eauto using ri_conn. Qed.
Lemma finish_rooms max h t k : env_ok true max h → polite true max h → let s := rrun true max h in
  ∀ a, r_heap s !! k = Some a → rk_connected a = false → rk_can_join a = true →
  rooms_of (r_reg (rrun true max (h ++ [(t, RFinish k)]))) (rk_id a) = {[rk_id a]} ∪ rooms_of (r_reg s) (rk_id a).
Proof.
  intros He Hp s a Ha Hc Hj. rewrite rrun_snoc. unfold rstep. cbn [fst snd]. fold s. rewrite Ha, Hc, Hj. cbn [negb andb].
  unfold finish. set (a' := RSock _ _ _ _ _ _ _). cbn [send r_reg]. set (s1 := set_heap _ _).
  assert (r_reg (join a' [rk_id a'] s1) = (add_all (rk_id a) (remove_dups [rk_id a]) (r_reg s)).1) as -> by (unfold join; cbn [a' rk_can_join]; by rewrite Hj).
  apply set_eq. intros r. rewrite add_all_rooms_of, elem_of_remove_dups. set_solver.
Qed.

(** ** C31 *)
Lemma step_sock e s k a : rinv s → op_env s e.2 → r_heap s !! k = Some a → ∃ a', r_heap (rstep true e s) !! k = Some a' ∧ same_ids a a' ∧
  (rk_can_join a = false → rk_can_join a' = false) ∧ (rk_connected a = true → rk_connected a' = true ∨ rk_can_join a' = false) ∧
  (rk_connected a = false → rk_connected a' = true → e.2 = RFinish k ∧ rk_can_join a = true).
Proof.
  intros Hi He Ha. destruct e as [t op]. cbn [snd] in He. unfold rstep. cbn [fst snd].
  assert (∃ a', r_heap s !! k = Some a' ∧ same_ids a a' ∧ (rk_can_join a = false → rk_can_join a' = false) ∧ (rk_connected a = true → rk_connected a' = true ∨ rk_can_join a' = false) ∧ (rk_connected a = false → rk_connected a' = true → op = RFinish k ∧ rk_can_join a = true)) as Hsame.
  { exists a. split; [done|]. split; [done|]. split; [done|]. split; [by left|congruence]. }
  assert (∀ j b b', r_heap s !! j = Some b → same_ids b b' → (rk_can_join b = false → rk_can_join b' = false) → (rk_connected b = true → rk_connected b' = true ∨ rk_can_join b' = false) → (rk_connected b = false → rk_connected b' = true → op = RFinish j ∧ rk_can_join b = true) →
    ∃ a', <[j := b']> (r_heap s) !! k = Some a' ∧ same_ids a a' ∧ (rk_can_join a = false → rk_can_join a' = false) ∧ (rk_connected a = true → rk_connected a' = true ∨ rk_can_join a' = false) ∧ (rk_connected a = false → rk_connected a' = true → op = RFinish k ∧ rk_can_join a = true)) as Hupd.
  { intros j b b' Hb H1 H2 H3 H4. destruct (decide (j = k)) as [->|Hne].
    - assert (b = a) as -> by congruence. exists b'. rewrite list_lookup_insert by (by eapply lookup_lt_Some). done.
    - rewrite list_lookup_insert_ne by done. done. }
  assert (∀ b, ∃ a', (r_heap s ++ [b]) !! k = Some a' ∧ same_ids a a' ∧ (rk_can_join a = false → rk_can_join a' = false) ∧ (rk_connected a = true → rk_connected a' = true ∨ rk_can_join a' = false) ∧ (rk_connected a = false → rk_connected a' = true → op = RFinish k ∧ rk_can_join a = true)) as Happ.
  { intros b. destruct Hsame as (a'&Ha'&?). exists a'. split; [by apply lookup_app_l_Some|done]. }
  destruct op as [c auth id pid o1 o2|j|j o|j rs|j r|j v|pk b os|j c o|].
  - unfold create. destruct auth as [[p off]|]; [|apply Happ]. destruct (restore _ _ _ _ _) as [st r]. destruct r as [|x l|]; [apply Happ| |apply Hsame].
    unfold create_recovered. cbn [send set_heap r_heap].
    destruct (joins_frame (RSock (se_sid x) (se_pid x) c (se_data x) true false true) (o2 (se_rooms x)) (set_store st s)) as (_&_&->&_). apply Happ.
  - destruct (r_heap s !! j) as [b|] eqn:Hb; [|done]. destruct (rk_connected b) eqn:Hc; [done|]. destruct (rk_can_join b) eqn:Hj; [|done]. cbn [negb andb].
    unfold finish. cbn [send r_heap]. match goal with |- ∃ _, r_heap (join ?a ?rs ?s) !! _ = _ ∧ _ => destruct (join_frame a rs s) as (_&_&->&_) end.
    eapply Hupd; [exact Hb|done|done|by left|done].
  - destruct (r_heap s !! j) as [b|] eqn:Hb; [|done]. destruct (rk_connected b) eqn:Hc; [done|]. destruct (rk_can_join b) eqn:Hj; [|done]. cbn [negb andb].
    eapply Hupd; [exact Hb|done|done|by right|]. simpl. congruence.
  - destruct (r_heap s !! j) as [b|] eqn:Hb; [|done]. by destruct (join_frame b rs s) as (_&_&->&_).
  - by destruct (r_heap s !! j) as [b|] eqn:Hb.
  - destruct (r_heap s !! j) as [b|] eqn:Hb; [|done]. eapply Hupd; [exact Hb|done|done|by left|]. simpl. congruence.
  - destruct He as [Hb Ho]. by destruct (emit_frame true t pk b os s Hb Ho Hi) as (_&_&_&->).
  - destruct (r_heap s !! j) as [b|] eqn:Hb; [|done]. destruct (rk_connected b) eqn:Hc; [|done]. unfold onclose. cbn [andb].
    assert (∀ s1, r_heap s1 = r_heap s → <[j := RSock (rk_id b) (rk_pid b) (rk_client b) (rk_data b) (rk_recovered b) false false]> (r_heap (cleanup_socket j b o s1)) = <[j := RSock (rk_id b) (rk_pid b) (rk_client b) (rk_data b) (rk_recovered b) false false]> (r_heap s)) as Eq.
    { intros s1 E. cbn [cleanup_socket set_heap set_nsock set_reg r_heap]. by rewrite list_insert_insert, E. }
    cbn [set_heap r_heap]. rewrite Eq by (by destruct (bool_decide _); destruct c). eapply Hupd; [exact Hb|done|done|by right|done].
  - done.
Qed.
Lemma received_ext s s' c : r_out s' = r_out s → received s' c = received s c.
Proof. unfold received. by intros ->. Qed.
Lemma received_nil_send c' l s c : omap (λ w, match w with WEvent true d => Some d | _ => None end) l = [] → received (send c' l s) c = received s c.
Proof. intros E. rewrite received_send, E. case_decide; by rewrite app_nil_r. Qed.
Lemma step_received e s k a : rinv s → op_env s e.2 → r_heap s !! k = Some a →
  received (rstep true e s) (rk_client a) = received s (rk_client a) ++
    (if rk_connected a then wire_data <$> aimed_at (rooms_of (r_reg s) (rk_id a)) [e] else []).
Proof.
  intros Hi He Ha. destruct e as [t op]. cbn [snd] in He. unfold rstep. cbn [fst snd].
  assert (∀ l, aimed_at (rooms_of (r_reg s) (rk_id a)) [(t, op)] = [] → l = received s (rk_client a) → l = received s (rk_client a) ++ (if rk_connected a then wire_data <$> aimed_at (rooms_of (r_reg s) (rk_id a)) [(t, op)] else [])) as Hnil.
  { intros l -> ->. destruct (rk_connected a); by rewrite app_nil_r. }
  destruct op as [c auth id pid o1 o2|j|j o|j rs|j r|j v|pk b os|j c o|].
  1: apply Hnil; [done|].
  { destruct He as (_&_&Hf). destruct (Hf a) as (_&_&Hc); [by eapply elem_of_list_lookup_2|].
    unfold create. destruct auth as [[p off]|]; [|done]. destruct (restore _ _ _ _ _) as [st r]. destruct r as [|x l|]; [done| |done].
    unfold create_recovered. rewrite received_send, decide_False by congruence. rewrite app_nil_r. apply received_ext. cbn [set_heap r_out].
    by destruct (joins_frame (RSock (se_sid x) (se_pid x) c (se_data x) true false true) (o2 (se_rooms x)) (set_store st s)) as (_&_&_&->). }
  6: { destruct He as [Hb Ho]. rewrite (emit_received t pk b os s k a) by done. f_equal. unfold aimed_at, emissions. cbn [omap list_omap fst snd].
    destruct (rk_connected a) eqn:Hc.
    - destruct (decide (recoverable b)) as [Hr|Hr].
      + rewrite filter_cons. cbn [snd]. destruct (decide (concerns (rooms_of (r_reg s) (rk_id a)) b)) as [H|H]; [rewrite decide_True by done|rewrite decide_False by tauto]; done.
      + rewrite decide_False by tauto. done.
    - by rewrite decide_False by (intros [? _]; discriminate). }
  all: apply Hnil; [done|].
  - destruct (r_heap s !! j) as [b|] eqn:Hb; [|done]. destruct (_ && _); [|done]. unfold finish. rewrite received_nil_send by done. apply received_ext.
    by match goal with |- r_out (join ?a ?rs ?s) = _ => destruct (join_frame a rs s) as (_&_&_&->) end.
  - destruct (r_heap s !! j) as [b|] eqn:Hb; [|done]. destruct (_ && _); [|done]. by rewrite received_nil_send.
  - destruct (r_heap s !! j) as [b|] eqn:Hb; [|done]. apply received_ext. by destruct (join_frame b rs s) as (_&_&_&->).
  - by destruct (r_heap s !! j).
  - by destruct (r_heap s !! j).
  - destruct (r_heap s !! j) as [b|] eqn:Hb; [|done]. destruct (rk_connected b); [|done]. unfold onclose. cbn [andb].
    assert (received (match c with ByServer => send (rk_client b) [WDisconnect] s | _ => s end) (rk_client a) = received s (rk_client a)) as <-. { destruct c; try done. by rewrite received_nil_send. }
    by destruct (bool_decide _).
  - done.
Qed.

Lemma segment_sock max pre h k a : env_ok true max (pre ++ h) → polite true max (pre ++ h) → r_heap (rrun true max pre) !! k = Some a →
  ∃ a', r_heap (rrun true max (pre ++ h)) !! k = Some a' ∧ same_ids a a' ∧ (rk_can_join a = false → rk_can_join a' = false) ∧ (rk_connected a = true → rk_connected a' = true ∨ rk_can_join a' = false) ∧
    ((∀ t, (t, RFinish k) ∉ h) → rk_connected a = false → rk_connected a' = false).
Proof.
  intros He Hp Ha. induction h as [|e h IH] using rev_ind.
  { rewrite app_nil_r. exists a. split; [done|]. split; [done|]. split; [done|]. split; [by left|done]. }
  rewrite app_assoc in He, Hp |- *. pose proof (env_ok_snoc _ _ _ _ He) as [He1 He2]. pose proof (polite_app _ _ _ _ Hp) as Hp1.
  destruct (IH He1 Hp1) as (a1&H1&(I1&I2&I3)&H2&H3&H4). rewrite rrun_snoc.
  destruct (step_sock e _ k a1 (rrun_inv _ _ He1 Hp1) He2 H1) as (a2&G1&(K1&K2&K3)&G2&G3&G4). exists a2. split; [done|]. split; [split; [congruence|split; congruence]|].
  split; [auto|]. split.
  - intros Hc. destruct (H3 Hc) as [Hx|Hx]; auto.
  - intros Hn Hc. destruct (rk_connected a2) eqn:E; [|done]. destruct (G4 (H4 (λ t Ht, Hn t (proj2 (elem_of_app _ _ _) (or_introl Ht))) Hc) eq_refl) as [E2 _].
    exfalso. destruct e as [u op]. simpl in E2. subst op. apply (Hn u). apply elem_of_app. right. by left.
Qed.
Lemma live_segment max pre h k a a' : env_ok true max (pre ++ h) → polite true max (pre ++ h) → r_heap (rrun true max pre) !! k = Some a → rk_connected a = true →
  r_heap (rrun true max (pre ++ h)) !! k = Some a' → rk_connected a' = true →
  received (rrun true max (pre ++ h)) (rk_client a) = received (rrun true max pre) (rk_client a) ++ (wire_data <$> aimed_live true max pre (rk_id a) h).
Proof.
  revert pre a. induction h as [|e h IH]; intros pre a He Hp Ha Hc Ha' Hc'; [by rewrite !app_nil_r|].
  replace (pre ++ e :: h) with ((pre ++ [e]) ++ h) in * by by rewrite <- app_assoc. cbn [aimed_live].
  pose proof (env_ok_app _ _ _ _ He) as He0. pose proof (polite_app _ _ _ _ Hp) as Hp0. pose proof (env_ok_snoc _ _ _ _ He0) as [He1 He2]. pose proof (polite_app _ _ _ _ Hp0) as Hp1.
  pose proof (rrun_inv _ _ He1 Hp1) as Hi. destruct (step_sock e _ k a Hi He2 Ha) as (a1&H1&(I1&I2&I3)&_&H3&_). rewrite <- (rrun_snoc true max pre e) in H1.
  assert (rk_connected a1 = true) as Hc1.
  { destruct (H3 Hc) as [|Hj]; [done|]. destruct (segment_sock max (pre ++ [e]) h k a1 He Hp H1) as (a2&G1&_&G2&_). rewrite Ha' in G1. injection G1 as <-.
    pose proof (ri_conn _ (rrun_inv _ _ He Hp) _ _ Ha' Hc'). rewrite G2 in * by done. done. }
  rewrite <- I3, <- I1. rewrite (IH (pre ++ [e]) a1) by done. rewrite I3, I1, rrun_snoc, (step_received e _ k a) by done. rewrite Hc, fmap_app, <- app_assoc. done.
Qed.
Lemma idle_segment max pre h k a : env_ok true max (pre ++ h) → polite true max (pre ++ h) → r_heap (rrun true max pre) !! k = Some a → rk_connected a = false → (∀ t, (t, RFinish k) ∉ h) →
  received (rrun true max (pre ++ h)) (rk_client a) = received (rrun true max pre) (rk_client a).
Proof.
  intros He Hp Ha Hc Hn. induction h as [|e h IH] using rev_ind; [by rewrite app_nil_r|]. rewrite app_assoc in He, Hp |- *.
  pose proof (env_ok_snoc _ _ _ _ He) as [He1 He2]. pose proof (polite_app _ _ _ _ Hp) as Hp1.
  assert (∀ t, (t, RFinish k) ∉ h) as Hn1. { intros t Ht. apply (Hn t), elem_of_app. by left. }
  destruct (segment_sock max pre h k a He1 Hp1 Ha) as (a1&H1&(I1&I2&I3)&_&_&H4). rewrite <- IH by done. rewrite rrun_snoc, <- I3.
  rewrite (step_received e _ k a1) by (done || by apply rrun_inv). rewrite H4 by done. by rewrite app_nil_r.
Qed.
Lemma aimed_constant max pre h i R : (∀ p q, h = p ++ q → rooms_of (r_reg (rrun true max (pre ++ p))) i = R) → aimed_live true max pre i h = aimed_at R h.
Proof.
  revert pre. induction h as [|e h IH]; intros pre H; [done|]. cbn [aimed_live]. rewrite IH.
  - pose proof (H [] (e :: h) eq_refl) as E. rewrite app_nil_r in E. rewrite E. unfold aimed_at. rewrite <- filter_app, <- emissions_app. done.
  - intros p q ->. rewrite <- app_assoc. by apply (H (e :: p) q).
Qed.
Lemma out_clients max h : env_ok true max h → polite true max h → ∀ x, x ∈ r_out (rrun true max h) → ∃ a, a ∈ r_heap (rrun true max h) ∧ rk_client a = x.1.
Proof.
  induction h as [|e h IH] using rev_ind; intros He Hp; [intros x Hx; by apply elem_of_nil in Hx|].
  pose proof (env_ok_snoc _ _ _ _ He) as [He1 He2]. apply polite_app in Hp. specialize (IH He1 Hp). pose proof (rrun_inv _ _ He1 Hp) as Hi. rewrite rrun_snoc. set (s := rrun true max h) in *.
  assert (∀ a, a ∈ r_heap s → ∃ a', a' ∈ r_heap (rstep true e s) ∧ rk_client a' = rk_client a) as Hkeep.
  { intros a [k Hk]%elem_of_list_lookup. destruct (step_sock e s k a Hi He2 Hk) as (a'&Ha'&(_&_&?)&_). exists a'. split; [by eapply elem_of_list_lookup_2|done]. }
  assert (∀ x, x ∈ r_out s → ∃ a, a ∈ r_heap (rstep true e s) ∧ rk_client a = x.1) as Hold.
  { intros x Hx. destruct (IH x Hx) as (a&Ha&<-). destruct (Hkeep a Ha) as (a'&?&?). by exists a'. }
  assert (∀ k a c l, r_heap s !! k = Some a → c = rk_client a → ∀ x, x ∈ r_out s ++ (pair c <$> l) → ∃ a, a ∈ r_heap (rstep true e s) ∧ rk_client a = x.1) as Hsend.
  { intros k a c l Ha -> x [Hx|Hx]%elem_of_app; [auto|]. apply elem_of_list_fmap in Hx as (w&->&_). apply Hkeep. by eapply elem_of_list_lookup_2. }
  assert (∀ w l s1, r_heap s1 = r_heap s → (∀ x, x ∈ r_out s1 → ∃ a, a ∈ r_heap (rstep true e s) ∧ rk_client a = x.1) → ∀ x, x ∈ r_out (run_cbs r_nsock (deliver w) l s1) → ∃ a, a ∈ r_heap (rstep true e s) ∧ rk_client a = x.1) as Hcbs.
  { intros w l. induction l as [|i l IHl]; intros s1 E1 Hs1; [done|]. cbn [run_cbs]. apply IHl.
    - destruct (r_nsock s1 !! i); [|done]. by destruct (deliver_frame w n s1) as (_&_&_&->).
    - destruct (r_nsock s1 !! i) as [k|]; [|done]. unfold deliver. destruct (r_heap s1 !! k) as [a|] eqn:Ea; [|done]. rewrite E1 in Ea. cbn [send r_out].
      intros x [Hx|Hx]%elem_of_app; [auto|]. apply elem_of_list_fmap in Hx as (w'&->&_). apply Hkeep. by eapply elem_of_list_lookup_2. }
  destruct e as [t op]. cbn [snd] in He2. unfold rstep in Hkeep, Hold, Hsend, Hcbs |- *. cbn [fst snd] in Hkeep, Hold, Hsend, Hcbs |- *.
  destruct op as [c auth id pid o1 o2|j|j o|j rs|j r|j v|pk b os|j c o|].
  - unfold create in *. destruct auth as [[p off]|]; [|exact Hold]. destruct (restore _ _ _ _ _) as [st r]. destruct r as [|x l|]; [exact Hold| |exact Hold].
    unfold create_recovered in *. set (a := RSock (se_sid x) (se_pid x) c (se_data x) true false true) in *. cbn [send set_heap r_out r_heap] in *.
    intros y [Hy|Hy]%elem_of_app.
    + apply Hold. by destruct (joins_frame a (o2 (se_rooms x)) (set_store st s)) as (_&_&_&E); rewrite E in Hy.
    + apply elem_of_list_fmap in Hy as (w&->&_). exists a. split; [|done]. apply elem_of_app. right. by left.
  - destruct (r_heap s !! j) as [b|] eqn:Hb; [|exact Hold]. destruct (_ && _); [|exact Hold]. unfold finish in *. cbn [send r_out] in *.
    intros y Hy. eapply (Hsend j b _ _ Hb eq_refl). match type of Hy with _ ∈ r_out (join ?a ?rs ?s) ++ _ => destruct (join_frame a rs s) as (_&_&_&E); rewrite E in Hy end. exact Hy.
  - destruct (r_heap s !! j) as [b|] eqn:Hb; [|exact Hold]. destruct (_ && _); [|exact Hold]. by eapply (Hsend j b _ _ Hb).
  - destruct (r_heap s !! j) as [b|] eqn:Hb; [|exact Hold]. intros y Hy. apply Hold. by destruct (join_frame b rs s) as (_&_&_&E); rewrite E in Hy.
  - destruct (r_heap s !! j) as [b|] eqn:Hb; exact Hold.
  - destruct (r_heap s !! j) as [b|] eqn:Hb; exact Hold.
  - destruct He2 as [Hb Ho]. destruct (emit_eq true t pk b os s Hb Ho Hi) as (l&_&_&E). intros y Hy. rewrite E in Hy. eapply Hcbs; [| |exact Hy]; [done|exact Hold].
  - destruct (r_heap s !! j) as [b|] eqn:Hb; [|exact Hold]. destruct (rk_connected b); [|exact Hold]. intros y Hy.
    apply (Hsend j b _ (match c with ByServer => [WDisconnect] | _ => [] end) Hb eq_refl).
    unfold onclose in Hy. cbn [andb] in Hy. cbn [set_heap cleanup_socket set_nsock set_reg r_out] in Hy. destruct (bool_decide _); destruct c; cbn in Hy |- *; rewrite ?app_nil_r; exact Hy.
  - exact Hold.
Qed.
Lemma received_fresh max h c : env_ok true max h → polite true max h → (∀ a, a ∈ r_heap (rrun true max h) → rk_client a ≠ c) → received (rrun true max h) c = [].
Proof.
  intros He Hp Hf. unfold received. pose proof (out_clients max h He Hp) as Ho. revert Ho. generalize (r_out (rrun true max h)). intros l. induction l as [|x l IH]; intros Ho; [done|]. csimpl.
  rewrite IH by (intros y Hy; apply Ho; by right). destruct (Ho x) as (a&Ha&E); [by left|]. specialize (Hf a Ha). destruct x as [c' w]. cbn in *. destruct w as [|[]| |]; try done. by rewrite decide_False by congruence.
Qed.
