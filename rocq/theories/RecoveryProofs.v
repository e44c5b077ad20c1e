From Verif Require Import Base GoTypes Rooms RoomsSpec RoomsProofs Adapter Session SessionSpec SessionProofs Recovery RecoverySpec.

Lemma rrun_snoc csr max h e : rrun csr max (h ++ [e]) = rstep csr e (rrun csr max h).
Proof. unfold rrun. by rewrite foldl_app. Qed.

(** ** Received *)
Lemma received_send c' l s c : received (send c' l s) c =
  received s c ++ if decide (c' = c) then omap (λ w, match w with WEvent true d => Some d | _ => None end) l else [].
Proof.
  unfold received, send. cbn [r_out]. rewrite omap_app. f_equal. induction l as [|w l IH]; csimpl; [by case_decide|].
  rewrite IH. destruct w as [| [] | |]; csimpl; by case_decide.
Qed.

(** ** Invariant for orderly executions with recovery enabled *)
Record rinv (s : rstate) : Prop := {
  ri_reg : reg_inv (r_reg s);
  ri_conn : ∀ k a, r_heap s !! k = Some a → rk_connected a = true → rk_can_join a = true;
  ri_ns : ∀ i k, r_nsock s !! i = Some k ↔ ∃ a, r_heap s !! k = Some a ∧ rk_id a = i ∧ rk_connected a = true;
  ri_alive : ∀ k1 k2 a1 a2, r_heap s !! k1 = Some a1 → r_heap s !! k2 = Some a2 → rk_can_join a1 = true → rk_can_join a2 = true →
    rk_id a1 = rk_id a2 → k1 = k2;
  ri_pair : ∀ k1 k2 a1 a2, r_heap s !! k1 = Some a1 → r_heap s !! k2 = Some a2 → rk_pid a1 = rk_pid a2 ↔ rk_id a1 = rk_id a2;
  ri_client : ∀ k1 k2 a1 a2, r_heap s !! k1 = Some a1 → r_heap s !! k2 = Some a2 → rk_client a1 = rk_client a2 → k1 = k2;
  ri_sids : ∀ i, is_Some (rg_sids (r_reg s) !! i) → ∃ k a, r_heap s !! k = Some a ∧ rk_id a = i ∧ rk_can_join a = true;
  ri_known : ∀ k a, r_heap s !! k = Some a → rk_connected a = true → is_Some (rg_sids (r_reg s) !! rk_id a);
  ri_sess : ∀ pid x t, st_sessions (r_store s) !! pid = Some (x, t) → se_pid x = pid ∧ ∃ k a, r_heap s !! k = Some a ∧ rk_id a = se_sid x ∧ rk_pid a = pid
}.
Lemma rinit_inv max : rinv (rinit max).
Proof.
  split; simpl.
  - apply empty_inv.
  - done.
  - intros i k. rewrite lookup_empty. split; [done|]. by intros (a&?&_).
  - done. - done. - done.
  - intros i. rewrite lookup_empty. by intros [].
  - done.
  - intros pid x t. by rewrite lookup_empty.
Qed.

(** The parts of the state that Broadcast leaves alone. *)
Lemma deliver_frame w k s : r_store (deliver w k s) = r_store s ∧ r_reg (deliver w k s) = r_reg s ∧
  r_nsock (deliver w k s) = r_nsock s ∧ r_heap (deliver w k s) = r_heap s.
Proof. unfold deliver. by destruct (r_heap s !! k). Qed.
Lemma run_cbs_frame w l s : let s' := run_cbs r_nsock (deliver w) l s in r_store s' = r_store s ∧ r_reg s' = r_reg s ∧ r_nsock s' = r_nsock s ∧ r_heap s' = r_heap s.
Proof.
  revert s. induction l as [|i l IH]; intros s; [done|]. simpl. destruct (r_nsock s !! i) as [k|]; [|apply IH].
  destruct (IH (deliver w k s)) as (->&->&->&->). apply deliver_frame.
Qed.
Lemma run_cbs_received d l s c k a : rinv s → r_heap s !! k = Some a → rk_client a = c → NoDup l →
  received (run_cbs r_nsock (deliver (WEvent true d)) l s) c = received s c ++ if decide (rk_id a ∈ l ∧ rk_connected a = true) then [d] else [].
Proof.
  intros Hi Ha Hc. revert s Hi Ha. induction l as [|i l IH]; intros s Hi Ha Hnd; cbn [run_cbs].
  - rewrite decide_False; [by rewrite app_nil_r|]. intros [H _]. by apply elem_of_nil in H.
  - apply NoDup_cons in Hnd as [Hn Hnd].
    set (s' := match r_nsock s !! i with Some a => deliver (WEvent true d) a s | None => s end).
    assert (r_store s' = r_store s ∧ r_reg s' = r_reg s ∧ r_nsock s' = r_nsock s ∧ r_heap s' = r_heap s) as (E1&E2&E3&E4).
    { unfold s'. destruct (r_nsock s !! i); [apply deliver_frame|done]. }
    assert (rinv s') as Hi'. { destruct Hi. split; rewrite ?E1, ?E2, ?E3, ?E4; done. }
    rewrite IH; [|done|by rewrite E4|done]. clear IH Hi'.
    assert (received s' c = received s c ++ if decide (rk_id a = i ∧ rk_connected a = true) then [d] else []) as ->.
    { unfold s'. destruct (r_nsock s !! i) as [k'|] eqn:Ek.
      - apply (ri_ns _ Hi) in Ek as (a'&Ha'&Hid&Hco). unfold deliver. rewrite Ha', received_send. f_equal.
        destruct (decide (rk_client a' = c)) as [Hcc|Hcc]; cbn [omap list_omap].
        + assert (k' = k) as -> by (eapply (ri_client _ Hi); eauto; congruence). assert (a' = a) as -> by congruence. by rewrite decide_True.
        + rewrite decide_False; [done|]. intros [Hia Hca]. assert (k' = k) as ->; [|congruence].
          eapply (ri_alive _ Hi); eauto using ri_conn. congruence.
      - rewrite decide_False; [by rewrite app_nil_r|]. intros [Hia Hca]. assert (r_nsock s !! i = Some k); [|congruence].
        apply (ri_ns _ Hi). eauto. }
    rewrite <- app_assoc. f_equal. destruct (decide (rk_id a = i)) as [->|Hne].
    + destruct (decide (i = i ∧ rk_connected a = true)) as [[_ H]|H]; destruct (decide (i ∈ i :: l ∧ _)) as [H'|H']; destruct (decide (i ∈ l ∧ _)) as [H''|H'']; try done; exfalso; set_solver.
    + rewrite decide_False by naive_solver. simpl. destruct (decide (rk_id a ∈ l ∧ _)) as [H'|H']; destruct (decide (rk_id a ∈ i :: l ∧ _)) as [H''|H'']; try done; exfalso; set_solver.
Qed.

Lemma emit_eq csr now pk b os s : proper b → orders_ok os → rinv s → ∃ l, NoDup l ∧
  (∀ i, i ∈ l ↔ concerns (rooms_of (r_reg s) i) b ∧ is_Some (r_nsock s !! i)) ∧
  emit csr now pk b os s =
   run_cbs r_nsock (deliver (WEvent (csr && storable b) (if csr && storable b then bc_data b ++ [VStr pk] else bc_data b))) l
    (set_store (if csr then (sbroadcast now pk b (r_store s)).1 else r_store s) s).
Proof.
  intros (rs&ex&f&Eb) (O1&O2&O3&_) Hi.
  set (st := if csr then (sbroadcast now pk b (r_store s)).1 else r_store s).
  set (w := WEvent (csr && storable b) (if csr && storable b then bc_data b ++ [VStr pk] else bc_data b)).
  assert (emit csr now pk b os s = (apply_sockets r_reg r_nsock (deliver w) (o_rooms os) (o_ids os) (o_sids os) (Some rs) (Some ex) (set_store st s)).1) as E.
  { unfold emit, w, st, sbroadcast. rewrite Eb. destruct csr; [|done]. cbn [andb]. destruct (storable b); done. }
  rewrite E. clear E.
  destruct (apply_spec r_reg r_nsock (deliver w) (λ _, True)) with (orm := o_rooms os) (oid := o_ids os) (oall := o_sids os) (rooms := Some rs) (except := Some ex) (s := set_store st s) as (A1&_&_&A2); try done.
  { intros s' id k _ _. split; [|done]. split; destruct (deliver_frame w k s') as (_&E2&E3&_); rewrite ?E2, ?E3; done. }
  rewrite (apply_cbs r_reg r_nsock (deliver w)). eexists. split; [exact A1|]. split; [|done].
  intros i. rewrite A2. cbn [default set_store r_reg r_nsock].
  assert (is_Some (r_nsock s !! i) → (selected (r_reg s) rs ex i ↔ concerns (rooms_of (r_reg s) i) b)) as Hs; [|clear A1 A2; unfold id; tauto].
  intros [k Hk]. unfold selected, concerns. rewrite Eb. destruct (ri_reg _ Hi) as [R1 _]. setoid_rewrite R1.
  apply (ri_ns _ Hi) in Hk as (a&Ha&<-&Hco). pose proof (ri_known _ Hi _ _ Ha Hco) as Hkn.
  case_decide as Hrs; [subst|]; naive_solver.
Qed.

Lemma emit_frame csr now pk b os s : proper b → orders_ok os → rinv s → let s' := emit csr now pk b os s in
  r_store s' = (if csr then (sbroadcast now pk b (r_store s)).1 else r_store s) ∧ r_reg s' = r_reg s ∧ r_nsock s' = r_nsock s ∧ r_heap s' = r_heap s.
Proof.
  intros Hp Ho Hi. destruct (emit_eq csr now pk b os s Hp Ho Hi) as (l&_&_&->).
  exact (run_cbs_frame _ l (set_store _ s)).
Qed.
Lemma set_store_inv st s : rinv s → (∀ pid x t, st_sessions st !! pid = Some (x, t) → se_pid x = pid ∧ ∃ k a, r_heap s !! k = Some a ∧ rk_id a = se_sid x ∧ rk_pid a = pid) → rinv (set_store st s).
Proof. intros [] H. split; done. Qed.
Lemma sbroadcast_sessions now pk b st : st_sessions (sbroadcast now pk b st).1 = st_sessions st.
Proof. unfold sbroadcast. by destruct (storable b). Qed.
Lemma run_cbs_unstored d l s c : received (run_cbs r_nsock (deliver (WEvent false d)) l s) c = received s c.
Proof.
  revert s. induction l as [|i l IH]; intros s; [done|]. cbn [run_cbs]. rewrite IH. destruct (r_nsock s !! i) as [k|]; [|done].
  unfold deliver. destruct (r_heap s !! k); [|done]. rewrite received_send. case_decide; simpl; by rewrite app_nil_r.
Qed.
Lemma emit_received now pk b os s k a : proper b → orders_ok os → rinv s → r_heap s !! k = Some a →
  received (emit true now pk b os s) (rk_client a) = received s (rk_client a) ++
    if decide (rk_connected a = true ∧ recoverable b ∧ concerns (rooms_of (r_reg s) (rk_id a)) b) then [bc_data b ++ [VStr pk]] else [].
Proof.
  intros Hp Ho Hi Ha. destruct (emit_eq true now pk b os s Hp Ho Hi) as (l&Hnd&Hl&->). cbn [andb].
  destruct (storable b) eqn:Est.
  - rewrite (run_cbs_received _ _ _ _ k a); [|apply set_store_inv; [done|rewrite sbroadcast_sessions; apply Hi]|done|done|done].
    change (received (set_store _ s)) with (received s). f_equal. apply storable_recoverable in Est. specialize (Hl (rk_id a)).
    assert (rk_connected a = true → is_Some (r_nsock s !! rk_id a)) as Hn. { intros Hco. exists k. apply (ri_ns _ Hi). eauto. }
    destruct (decide (rk_id a ∈ l ∧ rk_connected a = true)); destruct (decide (rk_connected a = true ∧ recoverable b ∧ concerns (rooms_of (r_reg s) (rk_id a)) b)); tauto || done.
  - rewrite run_cbs_unstored. rewrite decide_False; [by rewrite app_nil_r|]. intros (_&Hr&_). apply storable_recoverable in Hr. congruence.
Qed.

(** ** Preservation *)
(** Changing a socket in place without touching its identity. *)
Lemma lookup_insert_cases {A} (l : list A) k x j y : <[k := x]> l !! j = Some y → (j = k ∧ y = x ∧ k < length l) ∨ (j ≠ k ∧ l !! j = Some y).
Proof. intros [(->&->&?)|[? ?]]%list_lookup_insert_Some; [left|right]; auto. Qed.
Lemma join_reg_eq a rs s : r_reg (join a rs s) = if rk_can_join a then (add_all (rk_id a) (remove_dups rs) (r_reg s)).1 else r_reg s.
Proof. unfold join. by destruct (rk_can_join a). Qed.
Lemma join_frame a rs s : r_store (join a rs s) = r_store s ∧ r_nsock (join a rs s) = r_nsock s ∧ r_heap (join a rs s) = r_heap s ∧ r_out (join a rs s) = r_out s.
Proof. unfold join. by destruct (rk_can_join a). Qed.
Lemma joins_frame a l s : let s' := foldl (λ s r, join a [r] s) s l in r_store s' = r_store s ∧ r_nsock s' = r_nsock s ∧ r_heap s' = r_heap s ∧ r_out s' = r_out s.
Proof.
  revert s. induction l as [|r l IH]; intros s; [done|]. cbn [foldl]. destruct (IH (join a [r] s)) as (->&->&->&->). apply join_frame.
Qed.
Lemma joins_reg a l s : rk_can_join a = true → reg_inv (r_reg s) → let s' := foldl (λ s r, join a [r] s) s l in
  reg_inv (r_reg s') ∧ (∀ i r, r ∈ rooms_of (r_reg s') i ↔ r ∈ rooms_of (r_reg s) i ∨ (i = rk_id a ∧ r ∈ l)) ∧
  (∀ i, is_Some (rg_sids (r_reg s') !! i) → is_Some (rg_sids (r_reg s) !! i) ∨ i = rk_id a) ∧
  (∀ i, is_Some (rg_sids (r_reg s) !! i) → is_Some (rg_sids (r_reg s') !! i)).
Proof.
  intros Hj. revert s. induction l as [|r l IH]; intros s Hi; cbn [foldl].
  - split; [done|]. split; [|split; [by left|done]]. intros i r. rewrite elem_of_nil. tauto.
  - assert (r_reg (join a [r] s) = (add_all (rk_id a) (remove_dups [r]) (r_reg s)).1) as Er by (unfold join; by rewrite Hj).
    destruct (IH (join a [r] s)) as (H1&H2&H3&H4). { rewrite Er. by apply add_all_inv. }
    split; [done|]. rewrite Er in H2, H3, H4. split; [|split].
    + intros i r'. rewrite H2, add_all_rooms_of, elem_of_remove_dups, elem_of_list_singleton, elem_of_cons. tauto.
    + intros i Hs. apply H3 in Hs as [Hs|?]; [|by right]. apply add_all_known in Hs as [?|?]; tauto.
    + intros i Hs. apply H4, add_all_known. by left.
Qed.

Definition same_ids (a a' : rsock) : Prop := rk_id a' = rk_id a ∧ rk_pid a' = rk_pid a ∧ rk_client a' = rk_client a.
(** One open socket changes. *)
Lemma inv_update s s' k a a' : rinv s → r_heap s !! k = Some a → rk_can_join a = true →
  r_heap s' = <[k := a']> (r_heap s) → same_ids a a' → (rk_connected a' = true → rk_can_join a' = true) →
  reg_inv (r_reg s') →
  (∀ i, i ≠ rk_id a → r_nsock s' !! i = r_nsock s !! i) →
  r_nsock s' !! rk_id a = (if rk_connected a' then Some k else None) →
  (∀ i, i ≠ rk_id a → is_Some (rg_sids (r_reg s') !! i) ↔ is_Some (rg_sids (r_reg s) !! i)) →
  (is_Some (rg_sids (r_reg s') !! rk_id a) → rk_can_join a' = true) →
  (rk_connected a' = true → is_Some (rg_sids (r_reg s') !! rk_id a)) →
  (∀ pid x t, st_sessions (r_store s') !! pid = Some (x, t) → st_sessions (r_store s) !! pid = Some (x, t) ∨ (se_pid x = pid ∧ pid = rk_pid a ∧ se_sid x = rk_id a)) →
  rinv s'.
Proof.
  intros Hi Ha Hal Eh (I1&I2&I3) Hcj Hr Hn1 Hn2 Hs1 Hs2 Hs3 Hss.
  assert (∀ j y, r_heap s' !! j = Some y → ∃ y0, r_heap s !! j = Some y0 ∧ same_ids y0 y ∧ (j ≠ k → y = y0) ∧ (j = k → y = a')) as Hb.
  { intros j y Hy. rewrite Eh in Hy. apply lookup_insert_cases in Hy as [(->&->&_)|[Hne Hy]]; [exists a|exists y]; split; try done; by split. }
  assert (∀ j y0, r_heap s !! j = Some y0 → ∃ y, r_heap s' !! j = Some y ∧ same_ids y0 y ∧ (j ≠ k → y = y0)) as Hf.
  { intros j y0 Hy. rewrite Eh. destruct (decide (j = k)) as [->|Hne].
    - exists a'. rewrite list_lookup_insert by (by apply lookup_lt_Some in Hy). assert (y0 = a) as -> by congruence. by split.
    - exists y0. by rewrite list_lookup_insert_ne. }
  assert (r_heap s' !! k = Some a') as Hk'. { rewrite Eh. apply list_lookup_insert. by apply lookup_lt_Some in Ha. }
  assert (∀ j y, r_heap s' !! j = Some y → rk_can_join y = true → ∃ y0, r_heap s !! j = Some y0 ∧ rk_can_join y0 = true ∧ same_ids y0 y) as Hb2.
  { intros j y Hy Hyj. destruct (Hb j y Hy) as (y0&H1&H2&H3&H4). exists y0. split; [done|]. split; [|done]. destruct (decide (j = k)) as [->|Hne]; [congruence|]. by rewrite <- H3. }
  split.
  - done.
  - intros j y Hy Hc. destruct (Hb j y Hy) as (y0&H1&H2&H3&H4). destruct (decide (j = k)) as [->|Hne].
    + rewrite H4 in * by done. auto.
    + rewrite H3 in * by done. by eapply (ri_conn _ Hi).
  - intros i j. destruct (decide (i = rk_id a)) as [->|Hne].
    + rewrite Hn2. split.
      * destruct (rk_connected a') eqn:E; [|done]. intros [= <-]. eauto.
      * intros (y&Hy&Hid&Hco). destruct (Hb j y Hy) as (y0&H1&(H2&_)&H3&H4). assert (j = k) as ->.
        { destruct (decide (j = k)); [done|]. eapply (ri_alive _ Hi); [exact H1|exact Ha|rewrite <- H3 by done; rewrite H3 in * by done; by eapply (ri_conn _ Hi)|done|congruence]. }
        rewrite H4 in Hco by done. by rewrite Hco.
    + rewrite Hn1 by done. rewrite (ri_ns _ Hi). split.
      * intros (y0&Hy&Hid&Hco). destruct (Hf j y0 Hy) as (y&H1&H2&H3). assert (j ≠ k) by congruence. rewrite H3 in H1 by done. eauto.
      * intros (y&Hy&Hid&Hco). destruct (Hb j y Hy) as (y0&H1&(H2&_)&H3&H4). assert (j ≠ k) by congruence. rewrite <- H3 in H1 by done. eauto.
  - intros k1 k2 a1 a2 H1 H2 C1 C2 E. destruct (Hb2 _ _ H1 C1) as (b1&B1&D1&(F1&_)). destruct (Hb2 _ _ H2 C2) as (b2&B2&D2&(F2&_)).
    eapply (ri_alive _ Hi); eauto. congruence.
  - intros k1 k2 a1 a2 H1 H2. destruct (Hb _ _ H1) as (b1&B1&(F1&G1&_)&_). destruct (Hb _ _ H2) as (b2&B2&(F2&G2&_)&_). rewrite F1, F2, G1, G2. by eapply (ri_pair _ Hi).
  - intros k1 k2 a1 a2 H1 H2 E. destruct (Hb _ _ H1) as (b1&B1&(_&_&G1)&_). destruct (Hb _ _ H2) as (b2&B2&(_&_&G2)&_). eapply (ri_client _ Hi); eauto. congruence.
  - intros i Hs. destruct (decide (i = rk_id a)) as [->|Hne]; [exists k, a'; by auto|]. apply Hs1 in Hs; [|done].
    destruct (ri_sids _ Hi _ Hs) as (j&y0&Hy&Hid&Hc). destruct (Hf j y0 Hy) as (y&H1&H2&H3). exists j, y. assert (j ≠ k) by congruence. rewrite H3 in * by done. done.
  - intros j y Hy Hc. destruct (Hb j y Hy) as (y0&H1&(H2&_)&H3&H4). rewrite H2. destruct (decide (j = k)) as [->|Hne].
    + assert (y0 = a) as -> by congruence. rewrite H4 in Hc by done. auto.
    + destruct (decide (rk_id y0 = rk_id a)) as [E|E].
      * exfalso. apply Hne. rewrite <- H3 in H1 by done. eapply (ri_alive _ Hi); [exact H1|exact Ha|by eapply (ri_conn _ Hi)|done|congruence].
      * apply Hs1; [done|]. rewrite <- H3 in * by done. by eapply (ri_known _ Hi).
  - intros pid x t Hx. destruct (Hss _ _ _ Hx) as [H|(E1&E2&E3)].
    + destruct (ri_sess _ Hi _ _ _ H) as (E&j&y0&Hy&Hid&Hpid). split; [done|]. destruct (Hf j y0 Hy) as (y&H1&(F1&F2&_)&_). exists j, y. split; [done|]. split; congruence.
    + split; [done|]. exists k, a'. split; [done|]. split; congruence.
Qed.
(** A socket is added. *)
Lemma inv_append s s' a : rinv s → r_heap s' = r_heap s ++ [a] → r_nsock s' = r_nsock s →
  rk_connected a = false → rk_can_join a = true →
  (∀ b, b ∈ r_heap s → rk_client b ≠ rk_client a) →
  (∀ b, b ∈ r_heap s → rk_id b = rk_id a → rk_can_join b = false) →
  (∀ b, b ∈ r_heap s → rk_pid b = rk_pid a ↔ rk_id b = rk_id a) →
  reg_inv (r_reg s') →
  (∀ i, is_Some (rg_sids (r_reg s') !! i) → is_Some (rg_sids (r_reg s) !! i) ∨ i = rk_id a) →
  (∀ i, is_Some (rg_sids (r_reg s) !! i) → is_Some (rg_sids (r_reg s') !! i)) →
  (∀ pid x t, st_sessions (r_store s') !! pid = Some (x, t) → st_sessions (r_store s) !! pid = Some (x, t)) →
  rinv s'.
Proof.
  intros Hi Eh En Hco Hcj Hcl Hal Hpr Hr Hs1 Hs2 Hss.
  assert (∀ j y, r_heap s' !! j = Some y → (r_heap s !! j = Some y ∧ y ∈ r_heap s) ∨ (j = length (r_heap s) ∧ y = a)) as Hb.
  { intros j y Hy. rewrite Eh in Hy. apply lookup_app_Some in Hy as [Hy|[Hl Hy]]; [left; split; [done|]; by eapply elem_of_list_lookup_2|right].
    apply list_lookup_singleton_Some in Hy as [E <-]. split; [lia|done]. }
  assert (∀ j y, r_heap s !! j = Some y → r_heap s' !! j = Some y) as Hf. { intros j y Hy. rewrite Eh. by apply lookup_app_l_Some. }
  split.
  - done.
  - intros j y Hy Hc. destruct (Hb _ _ Hy) as [[H _]|[_ ->]]; [by eapply (ri_conn _ Hi)|congruence].
  - intros i j. rewrite En, (ri_ns _ Hi). split; [intros (y&?&?); eauto|]. intros (y&Hy&Hid&Hc). destruct (Hb _ _ Hy) as [[H _]|[_ ->]]; [eauto|congruence].
  - intros k1 k2 a1 a2 H1 H2 C1 C2 E. destruct (Hb _ _ H1) as [[B1 M1]|[-> ->]]; destruct (Hb _ _ H2) as [[B2 M2]|[-> ->]]; [by eapply (ri_alive _ Hi)| | |done].
    + by rewrite (Hal _ M1) in C1.
    + by rewrite (Hal _ M2) in C2.
  - intros k1 k2 a1 a2 H1 H2. destruct (Hb _ _ H1) as [[B1 M1]|[-> ->]]; destruct (Hb _ _ H2) as [[B2 M2]|[-> ->]]; [by eapply (ri_pair _ Hi)|by apply Hpr| |done].
    destruct (Hpr _ M2). split; intros; symmetry; auto.
  - intros k1 k2 a1 a2 H1 H2 E. destruct (Hb _ _ H1) as [[B1 M1]|[-> ->]]; destruct (Hb _ _ H2) as [[B2 M2]|[-> ->]]; [by eapply (ri_client _ Hi)| | |done].
    + by destruct (Hcl _ M1). + by destruct (Hcl _ M2).
  - intros i Hs. destruct (Hs1 i Hs) as [H| ->].
    + destruct (ri_sids _ Hi _ H) as (j&y&Hy&?&?). exists j, y. auto.
    + exists (length (r_heap s)), a. split; [|done]. rewrite Eh. by rewrite list_lookup_middle.
  - intros j y Hy Hc. destruct (Hb _ _ Hy) as [[H _]|[_ ->]]; [|congruence]. apply Hs2. by eapply (ri_known _ Hi).
  - intros pid x t Hx. apply Hss in Hx. destruct (ri_sess _ Hi _ _ _ Hx) as (E&j&y&Hy&Hid&Hpid). split; [done|]. exists j, y. auto.
Qed.
(** Rooms change for an open socket. *)
Lemma inv_reg s g : rinv s → reg_inv g →
  (∀ i, is_Some (rg_sids g !! i) → is_Some (rg_sids (r_reg s) !! i) ∨ ∃ k a, r_heap s !! k = Some a ∧ rk_id a = i ∧ rk_can_join a = true) →
  (∀ i, is_Some (rg_sids (r_reg s) !! i) → is_Some (rg_sids g !! i)) → rinv (set_reg g s).
Proof.
  intros Hi Hg H1 H2. destruct Hi. split; try done; simpl.
  - intros i Hs. destruct (H1 i Hs); auto.
  - intros. apply H2. eauto.
Qed.

Lemma restore_session o now p off st st' x l : restore o now p off st = (st', RSession x l) → st' = st ∧ ∃ t, st_sessions st !! p = Some (x, t).
Proof.
  unfold restore. destruct (st_sessions st !! p) as [[y t]|]; [|done]. destruct (_ <? _)%Z; [done|]. destruct (after_offset _ _); [|done].
  destruct (missed_loop _ _); [|done]. intros [= <- <- _]. eauto.
Qed.
Lemma restore_sub o now p off st pid x t : st_sessions (restore o now p off st).1 !! pid = Some (x, t) → st_sessions st !! pid = Some (x, t).
Proof.
  destruct (restore_store o now p off st) as [->|(y&u&_&_&->)]; [done|]. cbn [st_sessions]. by intros [_ ?]%lookup_delete_Some.
Qed.

Lemma create_fresh_inv c id pid s : rinv s → (∀ a, a ∈ r_heap s → rk_id a ≠ id ∧ rk_pid a ≠ pid ∧ rk_client a ≠ c) → rinv (create_fresh true c id pid s).
Proof.
  intros Hi Hf. eapply (inv_append s _ (RSock id pid c VNil false false true)); [done|done|done|done|done| | | | |by left|done|done].
  - intros b Hb. by apply Hf.
  - intros b Hb E. by destruct (Hf b Hb).
  - intros b Hb. destruct (Hf b Hb) as (?&?&?). done.
  - apply Hi.
Qed.
Lemma create_recovered_inv c x l o s : rinv s → order_ok o → (∀ a, a ∈ r_heap s → rk_client a ≠ c) →
  (∃ t, st_sessions (r_store s) !! se_pid x = Some (x, t)) → (∀ a, a ∈ r_heap s → rk_pid a = se_pid x → rk_can_join a = false) →
  rinv (create_recovered c x l o s).
Proof.
  intros Hi Ho Hc [t Hx] Hp. unfold create_recovered. set (a := RSock (se_sid x) (se_pid x) c (se_data x) true false true).
  destruct (joins_frame a (o (se_rooms x)) s) as (E1&E2&E3&E4). destruct (joins_reg a (o (se_rooms x)) s) as (J1&J2&J3&J4); [done|apply Hi|].
  assert (∀ b, b ∈ r_heap s → rk_pid b = se_pid x ↔ rk_id b = se_sid x) as Hpair.
  { intros b Hb. destruct (ri_sess _ Hi _ _ _ Hx) as (_&k&y&Hy&<-&<-). apply elem_of_list_lookup in Hb as [j Hj]. by eapply (ri_pair _ Hi). }
  eapply (inv_append s _ a); cbn [send set_heap r_heap r_nsock r_reg r_store].
  - done.
  - by rewrite E3.
  - done.
  - done.
  - done.
  - done.
  - intros b Hb E. apply Hp; [done|]. by apply Hpair.
  - done.
  - done.
  - done.
  - done.
  - intros pid y u. by rewrite E1.
Qed.
Lemma create_inv now c auth id pid o1 o2 s : rinv s → op_env s (RCreate c auth id pid o1 o2) →
  (∀ p off, auth = Some (p, off) → ∀ a, a ∈ r_heap s → rk_pid a = p → rk_can_join a = false) →
  rinv (create true now c auth id pid o1 o2 s).
Proof.
  intros Hi (O1&O2&Hf) Hp. unfold create. destruct auth as [[p off]|]; [|by apply create_fresh_inv].
  destruct (restore o1 now p off (r_store s)) as [st r] eqn:E.
  assert (rinv (set_store st s)) as Hi'.
  { apply set_store_inv; [done|]. intros q x t Hx. apply (ri_sess _ Hi _ _ t). replace st with (restore o1 now p off (r_store s)).1 in Hx by by rewrite E. by apply restore_sub in Hx. }
  destruct r as [|x l|].
  - by apply create_fresh_inv.
  - destruct (restore_session _ _ _ _ _ _ _ _ E) as [-> [t Ht]]. destruct (ri_sess _ Hi _ _ _ Ht) as [Ex _].
    apply create_recovered_inv; [done|done|intros a Ha; by apply Hf|rewrite Ex; by exists t|]. intros a Ha Hpa. apply (Hp p off); [done|done|congruence].
  - done.
Qed.
Lemma finish_inv k a s : rinv s → r_heap s !! k = Some a → rk_can_join a = true → rinv (finish k a s).
Proof.
  intros Hi Ha Hj. unfold finish. set (a' := RSock (rk_id a) (rk_pid a) (rk_client a) (rk_data a) (rk_recovered a) true (rk_can_join a)).
  set (s1 := set_heap _ _). destruct (join_frame a' [rk_id a'] s1) as (F1&F2&F3&F4).
  assert (r_reg (join a' [rk_id a'] s1) = (add_all (rk_id a) (remove_dups [rk_id a]) (r_reg s)).1) as Er by (unfold join; cbn [a' rk_can_join]; by rewrite Hj).
  eapply (inv_update s _ k a a'); cbn [send r_heap r_nsock r_reg r_store]; rewrite ?F1, ?F2, ?F3, ?Er; try done.
  - by apply add_all_inv, Hi.
  - intros i Hne. cbn. by rewrite lookup_insert_ne by done.
  - cbn. by rewrite lookup_insert.
  - intros i Hne. rewrite add_all_known. tauto.
  - intros _. apply add_all_known. by right.
  - by left.
Qed.
Lemma cleanup_socket_inv k a o s : rinv s → order_ok o → r_heap s !! k = Some a → rk_can_join a = true → rk_connected a = false → rinv (cleanup_socket k a o s).
Proof.
  intros Hi Ho Ha Hj Hc. eapply (inv_update s _ k a); try done; cbn [cleanup_socket set_heap set_nsock set_reg r_heap r_nsock r_reg r_store].
  - rewrite Hc. discriminate.
  - by apply del_all_inv, Hi.
  - intros i Hne. by rewrite lookup_delete_ne.
  - rewrite Hc. by rewrite lookup_delete.
  - intros i Hne. rewrite del_all_known. tauto.
  - rewrite del_all_known. tauto.
  - rewrite Hc. discriminate.
  - by left.
Qed.
Lemma onclose_inv now k a c o s : rinv s → order_ok o → r_heap s !! k = Some a → rk_connected a = true → rinv (onclose true now k a c o s).
Proof.
  intros Hi Ho Ha Hc. pose proof (ri_conn _ Hi _ _ Ha Hc) as Hj.
  set (s1 := match c with ByServer => send (rk_client a) [WDisconnect] s | _ => s end).
  assert (r_heap s1 = r_heap s ∧ r_nsock s1 = r_nsock s ∧ r_reg s1 = r_reg s ∧ r_store s1 = r_store s) as (E1&E2&E3&E4) by (unfold s1; by destruct c).
  unfold onclose. fold s1. set (x := Session (rk_id a) (rk_pid a) (rooms_of (r_reg s1) (rk_id a)) (rk_data a)). cbv zeta. cbn [andb].
  set (b := bool_decide (reason_of c ∈ recoverable_reasons)). clearbody b.
  set (s2 := if b then _ else s1).
  assert (r_heap s2 = r_heap s ∧ r_nsock s2 = r_nsock s ∧ r_reg s2 = r_reg s ∧ ∀ pid y t, st_sessions (r_store s2) !! pid = Some (y, t) → st_sessions (r_store s) !! pid = Some (y, t) ∨ (se_pid y = pid ∧ pid = rk_pid a ∧ se_sid y = rk_id a)) as (F1&F2&F3&F4).
  { unfold s2. destruct b; cbn [set_store r_heap r_nsock r_reg r_store]; split; try done; split; try done; split; try done; rewrite E4; [|by left].
    intros pid y t. cbn [persist st_sessions]. intros [[<- [= <- <-]]|[Hne Hy]]%lookup_insert_Some; [right|left]; done. }
  clearbody s2. clear E1 E2 E3 E4 x s1.
  apply (inv_update s _ k a (RSock (rk_id a) (rk_pid a) (rk_client a) (rk_data a) (rk_recovered a) false false)); try done; cbn [cleanup_socket set_heap set_nsock set_reg r_heap r_nsock r_reg r_store]; rewrite ?F1, ?F2, ?F3.
  - by rewrite list_insert_insert.
  - by apply del_all_inv, Hi.
  - intros i Hne. by rewrite lookup_delete_ne.
  - by rewrite lookup_delete.
  - intros i Hne. rewrite del_all_known. tauto.
  - rewrite del_all_known. tauto.
Qed.
Lemma setdata_inv k a v s : rinv s → r_heap s !! k = Some a →
  rinv (set_heap (<[k := RSock (rk_id a) (rk_pid a) (rk_client a) v (rk_recovered a) (rk_connected a) (rk_can_join a)]> (r_heap s)) s).
Proof.
  intros Hi Ha. set (a' := RSock _ _ _ _ _ _ _).
  assert (∀ j y, <[k := a']> (r_heap s) !! j = Some y → ∃ y0, r_heap s !! j = Some y0 ∧ same_ids y0 y ∧ rk_connected y = rk_connected y0 ∧ rk_can_join y = rk_can_join y0) as Hb.
  { intros j y Hy. apply lookup_insert_cases in Hy as [(->&->&_)|[Hne Hy]]; [exists a|exists y]; split; try done; by split. }
  assert (∀ j y0, r_heap s !! j = Some y0 → ∃ y, <[k := a']> (r_heap s) !! j = Some y ∧ same_ids y0 y ∧ rk_connected y = rk_connected y0 ∧ rk_can_join y = rk_can_join y0) as Hf.
  { intros j y0 Hy. destruct (decide (j = k)) as [->|Hne].
    - exists a'. rewrite list_lookup_insert by (by apply lookup_lt_Some in Hy). assert (y0 = a) as -> by congruence. by split.
    - exists y0. by rewrite list_lookup_insert_ne. }
  clearbody a'. split; cbn [set_heap r_heap r_nsock r_reg r_store].
  - apply Hi.
  - intros j y Hy Hc. destruct (Hb _ _ Hy) as (y0&H1&_&E1&E2). rewrite E2. eapply (ri_conn _ Hi); [done|congruence].
  - intros i j. rewrite (ri_ns _ Hi). split.
    + intros (y0&Hy&Hid&Hc). destruct (Hf _ _ Hy) as (y&H1&(H2&_)&E1&E2). exists y. split; [done|]. split; congruence.
    + intros (y&Hy&Hid&Hc). destruct (Hb _ _ Hy) as (y0&H1&(H2&_)&E1&E2). exists y0. split; [done|]. split; congruence.
  - intros k1 k2 a1 a2 H1 H2 C1 C2 E. destruct (Hb _ _ H1) as (b1&B1&(F1&_)&_&D1). destruct (Hb _ _ H2) as (b2&B2&(F2&_)&_&D2). eapply (ri_alive _ Hi); eauto; congruence.
  - intros k1 k2 a1 a2 H1 H2. destruct (Hb _ _ H1) as (b1&B1&(F1&G1&_)&_). destruct (Hb _ _ H2) as (b2&B2&(F2&G2&_)&_). rewrite F1, F2, G1, G2. by eapply (ri_pair _ Hi).
  - intros k1 k2 a1 a2 H1 H2 E. destruct (Hb _ _ H1) as (b1&B1&(_&_&G1)&_). destruct (Hb _ _ H2) as (b2&B2&(_&_&G2)&_). eapply (ri_client _ Hi); eauto. congruence.
  - intros i Hs. destruct (ri_sids _ Hi _ Hs) as (j&y0&Hy&Hid&Hc). destruct (Hf _ _ Hy) as (y&H1&(H2&_)&E1&E2). exists j, y. split; [done|]. split; congruence.
  - intros j y Hy Hc. destruct (Hb _ _ Hy) as (y0&H1&(H2&_)&E1&E2). rewrite H2. eapply (ri_known _ Hi); [done|congruence].
  - intros pid x t Hx. destruct (ri_sess _ Hi _ _ _ Hx) as (E&j&y0&Hy&Hid&Hpid). split; [done|]. destruct (Hf j y0 Hy) as (y&H1&(F1&F2&_)&_). exists j, y. split; [done|]. split; congruence.
Qed.
Lemma rinv_ext s s' : rinv s → r_store s' = r_store s → r_reg s' = r_reg s → r_nsock s' = r_nsock s → r_heap s' = r_heap s → rinv s'.
Proof. intros [] E1 E2 E3 E4. split; rewrite ?E1, ?E2, ?E3, ?E4; done. Qed.
Lemma send_inv c l s : rinv s → rinv (send c l s).
Proof. intros []. split; done. Qed.

Lemma rstep_inv e s : rinv s → op_env s e.2 →
  (∀ c p off id pid o1 o2, e.2 = RCreate c (Some (p, off)) id pid o1 o2 → ∀ a, a ∈ r_heap s → rk_pid a = p → rk_can_join a = false) →
  rinv (rstep true e s).
Proof.
  destruct e as [t op]. cbn [snd]. intros Hi He Hp. unfold rstep. cbn [fst snd]. destruct op as [c auth id pid o1 o2|k|k o|k rs|k r|k v|pk b os|k c o|].
  - apply create_inv; [done|done|]. intros p off ->. by eapply Hp.
  - destruct (r_heap s !! k) as [a|] eqn:Ha; [|done]. destruct (rk_connected a) eqn:Hc; [done|]. destruct (rk_can_join a) eqn:Hj; [|done]. by apply finish_inv.
  - destruct (r_heap s !! k) as [a|] eqn:Ha; [|done]. destruct (rk_connected a) eqn:Hc; [done|]. destruct (rk_can_join a) eqn:Hj; [|done]. by apply send_inv, cleanup_socket_inv.
  - destruct (r_heap s !! k) as [a|] eqn:Ha; [|done]. unfold join. destruct (rk_can_join a) eqn:Hj; [|done]. apply inv_reg; [done|by apply add_all_inv, Hi| |].
    + intros i [?| ->]%add_all_known; [by left|right; eauto].
    + intros i Hs. apply add_all_known. by left.
  - destruct (r_heap s !! k) as [a|] eqn:Ha; [|done]. apply inv_reg; [done|by apply del_inv, Hi| |].
    + intros i Hs. rewrite del_known in Hs. by left.
    + intros i Hs. by rewrite del_known.
  - destruct (r_heap s !! k) as [a|] eqn:Ha; [|done]. by apply setdata_inv.
  - destruct He as [Hb Ho]. destruct (emit_frame true t pk b os s Hb Ho Hi) as (E1&E2&E3&E4).
    assert (rinv (set_store (sbroadcast t pk b (r_store s)).1 s)) as Hi'. { apply set_store_inv; [done|]. rewrite sbroadcast_sessions. apply Hi. }
    by apply (rinv_ext _ _ Hi').
  - destruct (r_heap s !! k) as [a|] eqn:Ha; [|done]. destruct (rk_connected a) eqn:Hc; [|done]. by apply onclose_inv.
  - apply set_store_inv; [done|]. intros pid x u Hx. rewrite cleanup_sessions in Hx. apply (ri_sess _ Hi _ _ u).
    destruct (st_sessions (r_store s) !! pid) as [[y w]|]; [|done]. by case_decide.
Qed.

Lemma env_ok_snoc csr max h e : env_ok csr max (h ++ [e]) → env_ok csr max h ∧ op_env (rrun csr max h) e.2.
Proof.
  intros [H1 H2 H3]. split; [split|].
  - intros h1 t op h2 ->. apply (H1 _ t op (h2 ++ [e])). by rewrite <- app_assoc.
  - unfold emissions in H2. rewrite omap_app, fmap_app in H2. by apply NoDup_app in H2 as [? _].
  - intros h1 t op h2 -> x Hx. apply (H3 h1 t op (h2 ++ [e])); [by rewrite <- app_assoc|]. apply elem_of_app. by left.
  - destruct e as [t op]. by apply (H1 h t op []).
Qed.
Lemma env_ok_app csr max h1 h2 : env_ok csr max (h1 ++ h2) → env_ok csr max h1.
Proof. revert h1. induction h2 as [|e h2 IH]; intros h1 H; [by rewrite app_nil_r in H|]. replace (h1 ++ e :: h2) with ((h1 ++ [e]) ++ h2) in H by by rewrite <- app_assoc. by apply IH, env_ok_snoc in H as [? _]. Qed.
Lemma polite_app csr max h1 h2 : polite csr max (h1 ++ h2) → polite csr max h1.
Proof. intros H h3 t c pid off id p o1 o2 h4 ->. eapply (H h3 _ _ _ _ _ _ _ _ (h4 ++ h2)). by rewrite <- app_assoc. Qed.
Lemma rrun_inv max h : env_ok true max h → polite true max h → rinv (rrun true max h).
Proof.
  induction h as [|e h IH] using rev_ind; intros He Hp; [apply rinit_inv|]. rewrite rrun_snoc. pose proof (env_ok_snoc _ _ _ _ He) as [He1 He2].
  apply rstep_inv; [apply IH; [done|by eapply polite_app]|done|]. intros c p off id pid o1 o2 E. destruct e as [t op]. simpl in E. subst op. by eapply Hp.
Qed.
