From Verif Require Import Base GoTypes Rooms RoomsSpec RoomsProofs Adapter Session SessionSpec SessionProofs Recovery RecoverySpec RecoveryProofs RecoveryProofs2.

Definition pid_closed (s : rstate) (pid : string) : Prop := (∃ a, a ∈ r_heap s ∧ rk_pid a = pid) ∧ ∀ a, a ∈ r_heap s → rk_pid a = pid → rk_can_join a = false.
Lemma step_backward e s k a' : rinv s → op_env s e.2 → r_heap (rstep true e s) !! k = Some a' →
  (∃ a, r_heap s !! k = Some a) ∨ ∃ c auth id pid o1 o2, e.2 = RCreate c auth id pid o1 o2 ∧ k = length (r_heap s) ∧
     (rk_pid a' = pid ∨ ∃ p off x t, auth = Some (p, off) ∧ st_sessions (r_store s) !! p = Some (x, t) ∧ rk_pid a' = se_pid x).
Proof.
  intros Hi He Ha'. destruct (decide (k < length (r_heap s))) as [Hl|Hl]; [left; by apply lookup_lt_is_Some|right].
  destruct e as [t op]. cbn [snd] in He. unfold rstep in Ha'. cbn [fst snd] in Ha'.
  assert (r_heap s !! k = Some a' → False) as Hno. { intros H. by apply lookup_lt_Some in H. }
  assert (∀ j b, <[j := b]> (r_heap s) !! k = Some a' → False) as Hno2. { intros j b H. apply lookup_lt_Some in H. by rewrite insert_length in H. }
  assert (∀ b, (r_heap s ++ [b]) !! k = Some a' → k = length (r_heap s) ∧ a' = b) as Happ.
  { intros b H. apply lookup_app_Some in H as [H|[H1 H2]]; [done|]. apply list_lookup_singleton_Some in H2 as [H2 <-]. split; [lia|done]. }
  destruct op as [c auth id pid o1 o2|j|j o|j rs|j r|j v|pk b os|j c o|]; cbn [snd].
  - exists c, auth, id, pid, o1, o2. split; [done|]. unfold create in Ha'. destruct auth as [[p off]|].
    + destruct (restore o1 t p off (r_store s)) as [st r] eqn:E. destruct r as [|x l|]; [|  |done].
      * apply Happ in Ha' as [-> ->]. split; [done|by left].
      * unfold create_recovered in Ha'. set (a0 := RSock (se_sid x) (se_pid x) c (se_data x) true false true) in *. cbn [send set_heap r_heap] in Ha'.
        destruct (joins_frame a0 (o2 (se_rooms x)) (set_store st s)) as (_&_&F&_). rewrite F in Ha'. apply Happ in Ha' as [-> ->]. split; [done|right].
        destruct (restore_session _ _ _ _ _ _ _ _ E) as [-> [u Hu]]. by exists p, off, x, u.
    + apply Happ in Ha' as [-> ->]. split; [done|by left].
  - destruct (r_heap s !! j) as [b|] eqn:Hb; [|done]. destruct (_ && _); [|done]. unfold finish in Ha'. cbn [send r_heap] in Ha'. exfalso.
    match type of Ha' with r_heap (join ?a ?rs ?s) !! _ = _ => destruct (join_frame a rs s) as (_&_&E&_); rewrite E in Ha' end. by apply Hno2 in Ha'.
  - destruct (r_heap s !! j) as [b|] eqn:Hb; [|done]. destruct (_ && _); [|done]. by apply Hno2 in Ha'.
  - destruct (r_heap s !! j) as [b|] eqn:Hb; [|done]. destruct (join_frame b rs s) as (_&_&E&_). rewrite E in Ha'. done.
  - destruct (r_heap s !! j) as [b|] eqn:Hb; done.
  - destruct (r_heap s !! j) as [b|] eqn:Hb; [|done]. by apply Hno2 in Ha'.
  - destruct He as [Hb Ho]. destruct (emit_frame true t pk b os s Hb Ho Hi) as (_&_&_&E). rewrite E in Ha'. done.
  - destruct (r_heap s !! j) as [b|] eqn:Hb; [|done]. destruct (rk_connected b); [|done]. exfalso. apply lookup_lt_Some in Ha'. unfold onclose in Ha'. cbn [andb] in Ha'.
    cbn [set_heap cleanup_socket set_nsock set_reg r_heap] in Ha'. rewrite !insert_length in Ha'. apply Hl. destruct (bool_decide _); destruct c; done.
  - done.
Qed.
Lemma pid_closed_step e s pid : rinv s → op_env s e.2 → (∀ c off id p o1 o2, e.2 ≠ RCreate c (Some (pid, off)) id p o1 o2) → pid_closed s pid → pid_closed (rstep true e s) pid.
Proof.
  intros Hi He Hn [(a0&Ha0&Hp0) Hcl]. pose proof Ha0 as Hin0. apply elem_of_list_lookup in Ha0 as [k0 Hk0]. split.
  - destruct (step_sock e s k0 a0 Hi He Hk0) as (a'&Ha'&(_&E&_)&_). exists a'. split; [by eapply elem_of_list_lookup_2|congruence].
  - intros a' [k Ha']%elem_of_list_lookup Hpid. destruct (step_backward e s k a' Hi He Ha') as [[a Ha]|(c&auth&id&p&o1&o2&E&->&Hcase)].
    + destruct (step_sock e s k a Hi He Ha) as (a2&Ha2&(_&E&_)&Hc&_). assert (a2 = a') as -> by congruence. apply Hc, Hcl; [by eapply elem_of_list_lookup_2|congruence].
    + exfalso. rewrite E in He. destruct He as (_&_&Hf). destruct Hcase as [Hc|(p'&off&x&t&->&Hx&Hc)].
      * destruct (Hf a0 Hin0) as (_&?&_). congruence.
      * destruct (ri_sess _ Hi _ _ _ Hx) as [Ex _]. assert (p' = pid) as -> by congruence. by eapply Hn.
Qed.
Lemma pid_closed_run max pre h pid : env_ok true max (pre ++ h) → polite true max (pre ++ h) → (∀ t c off id p o1 o2, (t, RCreate c (Some (pid, off)) id p o1 o2) ∉ h) →
  pid_closed (rrun true max pre) pid → pid_closed (rrun true max (pre ++ h)) pid ∧ ∃ l, rtrace max (pre ++ h) = rtrace max pre ++ l ∧ ∀ t x, (t, SPersist x) ∈ l → se_pid x ≠ pid.
Proof.
  intros He Hp Hn Hcl. induction h as [|e h IH] using rev_ind.
  { rewrite app_nil_r. split; [done|]. exists []. rewrite app_nil_r. split; [done|]. intros t x Hx. by apply elem_of_nil in Hx. }
  rewrite app_assoc in He, Hp |- *. pose proof (env_ok_snoc _ _ _ _ He) as [He1 He2]. pose proof (polite_app _ _ _ _ Hp) as Hp1.
  destruct IH as (IH1&l&IH2&IH3); [done|done|intros; intros Hx; eapply Hn; apply elem_of_app; by left|].
  pose proof (rrun_inv _ _ He1 Hp1) as Hi. split.
  - rewrite rrun_snoc. apply pid_closed_step; [done|done| |done]. intros c off id p o1 o2 E. destruct e as [t op]. simpl in E. subst op. eapply Hn. apply elem_of_app. right. by left.
  - rewrite rtrace_snoc, IH2, <- app_assoc. eexists. split; [done|]. intros t x [Hx|Hx]%elem_of_app; [by eapply IH3|].
    destruct (calls_persist _ _ _ _ Hx) as (k&c&o&a&_&Ha&Hc&_&->). cbn [se_pid]. intros E. destruct IH1 as [_ IH1].
    pose proof (ri_conn _ Hi _ _ Ha Hc) as Hj. rewrite IH1 in Hj; [done|by eapply elem_of_list_lookup_2|done].
Qed.

Lemma NoDup_wire l : NoDup ((λ y : string * Z * bcast, y.1.1) <$> l) → NoDup (wire_data <$> l).
Proof.
  intros H. apply (NoDup_fmap_1 (λ d : list value, match last d with Some (VStr s) => s | _ => "" end)). rewrite <- list_fmap_compose.
  erewrite list_fmap_ext; [exact H|]. intros i y _. unfold compose, wire_data. by rewrite last_snoc.
Qed.
Lemma sublist_filter' {A} (P : A → Prop) `{∀ x, Decision (P x)} (l : list A) : filter P l `sublist_of` l.
Proof. induction l as [|x l IH]; [done|]. rewrite filter_cons. destruct (decide (P x)); [by apply sublist_skip|by apply sublist_cons]. Qed.
Lemma sublist_fmap' {A B} (f : A → B) (l k : list A) : l `sublist_of` k → f <$> l `sublist_of` f <$> k.
Proof. induction 1; csimpl; by constructor. Qed.
Lemma sublist_NoDup' {A} (l k : list A) : l `sublist_of` k → NoDup k → NoDup l.
Proof. intros Hs Hn. apply sublist_submseteq, submseteq_Permutation in Hs as [k' E]. rewrite E in Hn. by apply NoDup_app in Hn as [? _]. Qed.
Lemma aimed_live_sub csr max pre i h : aimed_live csr max pre i h `sublist_of` emissions h.
Proof.
  revert pre. induction h as [|e h IH]; intros pre; [done|]. cbn [aimed_live]. change (e :: h) with ([e] ++ h). rewrite emissions_app. apply sublist_app; [apply sublist_filter'|apply IH].
Qed.

(** The history of one reconnection: [off] is the last packet that the client got before the connection broke. *)
Section reconnection.
  Context (max : Z) (h0 : list (Z * rop)) (t0 : Z) (off : string) (b0 : bcast) (os0 : orders) (h1 : list (Z * rop))
    (t1 : Z) (k : nat) (cz : cause) (o : order) (h2 : list (Z * rop))
    (t2 : Z) (c' : nat) (id' pid' : string) (o1 o2 : order) (hw : list (Z * rop)) (t3 : Z) (h3 : list (Z * rop)) (a : rsock).
  Let before := h0 ++ (t0, REmit off b0 os0) :: h1.
  Let gone := before ++ (t1, RClose k cz o) :: h2.
  Let back := gone ++ [(t2, RCreate c' (Some (rk_pid a, off)) id' pid' o1 o2)].
  Let k' := length (r_heap (rrun true max gone)).
  Let admitted := (back ++ hw) ++ [(t3, RFinish k')].
  Let whole := admitted ++ h3.
  Let R := rooms_of (r_reg (rrun true max before)) (rk_id a).
  Lemma no_loss :
    env_ok true max whole → polite true max whole →
    (* the socket is connected, gets the packet off, and keeps its rooms until it is closed *)
    r_heap (rrun true max h0) !! k = Some a → rk_connected a = true → recoverable b0 →
    (∀ p q, (t0, REmit off b0 os0) :: h1 = p ++ q → rooms_of (r_reg (rrun true max (h0 ++ p))) (rk_id a) = R) → concerns R b0 →
    (∃ a1, r_heap (rrun true max before) !! k = Some a1 ∧ rk_connected a1 = true) → recoverable_cause cz →
    (* this is the next reconnection, it recovers, is admitted, and is still open *)
    (∀ t c off id p o1 o2, (t, RCreate c (Some (rk_pid a, off)) id p o1 o2) ∉ h2) →
    (∃ a2, r_heap (rrun true max back) !! k' = Some a2 ∧ rk_recovered a2 = true) → (∀ t, (t, RFinish k') ∉ hw) →
    (∃ a3, r_heap (rrun true max whole) !! k' = Some a3 ∧ rk_connected a3 = true) →
    received (rrun true max before) (rk_client a) = received (rrun true max h0) (rk_client a) ++ (bc_data b0 ++ [VStr off]) :: (wire_data <$> aimed_at R h1) ∧
    received (rrun true max whole) c' = wire_data <$> (aimed_at R h1 ++ aimed_at R h2 ++ aimed_live true max admitted (rk_id a) h3) ∧
    NoDup (received (rrun true max whole) c').
  Proof.
    intros He Hp Ha Hc Hr0 Hrooms Hco (a1&Ha1&Hc1) Hrec Hnext (a2&Ha2&Hr2) Hnof (a3&Ha3&Hc3).
    assert (env_ok true max admitted) as He4 by by apply env_ok_app in He. assert (polite true max admitted) as Hp4 by by apply polite_app in Hp.
    assert (env_ok true max (back ++ hw)) as He3' by by apply env_ok_app in He4. assert (polite true max (back ++ hw)) as Hp3' by by apply polite_app in Hp4.
    assert (env_ok true max back) as He3 by by apply env_ok_app in He3'. assert (polite true max back) as Hp3 by by apply polite_app in Hp3'.
    assert (env_ok true max gone) as He2 by by apply env_ok_app in He3. assert (polite true max gone) as Hp2 by by apply polite_app in Hp3.
    assert (env_ok true max before) as He1 by by apply env_ok_app in He2. assert (polite true max before) as Hp1 by by apply polite_app in Hp2.
    set (pre2 := before ++ [(t1, RClose k cz o)]). assert (gone = pre2 ++ h2) as Eg by (unfold gone, pre2; by rewrite <- app_assoc).
    assert (env_ok true max pre2) as Hepre by (rewrite Eg in He2; by apply env_ok_app in He2). assert (polite true max pre2) as Hppre by (rewrite Eg in Hp2; by apply polite_app in Hp2).
    (* live until the connection breaks *)
    destruct (segment_sock max h0 ((t0, REmit off b0 os0) :: h1) k a He1 Hp1 Ha) as (a1'&Ha1'&(I1&I2&I3)&_). fold before in Ha1'. assert (a1' = a1) as -> by congruence.
    assert (aimed_live true max h0 (rk_id a) ((t0, REmit off b0 os0) :: h1) = (off, t0, b0) :: aimed_at R h1) as Ea.
    { rewrite (aimed_constant max h0 _ (rk_id a) R) by exact Hrooms. unfold aimed_at, emissions. csimpl. rewrite decide_True by done. rewrite filter_cons, decide_True by done. done. }
    split.
    { pose proof (live_segment max h0 _ k a a1 He1 Hp1 Ha Hc Ha1 Hc1) as L. fold before in L. rewrite L, Ea. done. }
    (* the session saved *)
    pose proof (rrun_inv _ _ He1 Hp1) as Hi1.
    assert (calls (t1, RClose k cz o) (rrun true max before) = [(t1, SPersist (Session (rk_id a) (rk_pid a) R (rk_data a1)))]) as Ecalls.
    { unfold calls. cbn [fst snd]. rewrite Ha1, Hc1, bool_decide_eq_true_2 by by apply recoverable_iff. cbn [andb]. unfold R. by rewrite I1, I2. }
    assert (pid_closed (rrun true max pre2) (rk_pid a)) as Hcl.
    { pose proof (rrun_inv _ _ Hepre Hppre) as Hi2. pose proof (env_ok_snoc _ _ _ _ Hepre) as [_ Heo].
      destruct (step_sock (t1, RClose k cz o) _ k a1 Hi1 Heo Ha1) as (b&Hb&(J1&J2&J3)&_). rewrite <- rrun_snoc in Hb. fold pre2 in Hb. split; [exists b; split; [by eapply elem_of_list_lookup_2|congruence]|].
      assert (rk_can_join b = false) as Hbj.
      { unfold pre2 in Hb. rewrite rrun_snoc in Hb. unfold rstep in Hb. cbn [fst snd] in Hb. rewrite Ha1, Hc1 in Hb. unfold onclose in Hb. cbn [set_heap r_heap] in Hb. apply list_lookup_insert_Some in Hb as [(_&<-&_)|[? _]]; done. }
      intros d [j Hd]%elem_of_list_lookup Hpd. destruct (rk_can_join d) eqn:Edj; [|done]. exfalso.
      destruct (step_backward _ _ j d Hi1 Heo) as [[d0 Hd0]|(?&?&?&?&?&?&?&_)]; [unfold pre2 in Hd; by rewrite rrun_snoc in Hd| |done].
      destruct (step_sock _ _ j d0 Hi1 Heo Hd0) as (d1&Hd1&(K1&K2&K3)&Kc&_). rewrite <- rrun_snoc in Hd1. fold pre2 in Hd1. assert (d1 = d) as -> by congruence.
      assert (rk_can_join d0 = true) as Hd0j by (destruct (rk_can_join d0); [done|]; by rewrite Kc in Edj).
      assert (j = k) as ->. { eapply (ri_alive _ Hi1); [exact Hd0|exact Ha1|done|by eapply (ri_conn _ Hi1)|]. apply (ri_pair _ Hi1 _ _ _ _ Hd0 Ha1). congruence. }
      congruence. }
    destruct (pid_closed_run max pre2 h2 (rk_pid a)) as (Hcl2&l&El&Hl); [by rewrite <- Eg|by rewrite <- Eg|done|done|]. rewrite <- Eg in Hcl2, El.
    assert (saved (rtrace max gone) (rk_pid a) (Session (rk_id a) (rk_pid a) R (rk_data a1)) t1) as Hsaved.
    { exists (rtrace max before), l. split; [|done]. rewrite El. unfold pre2. rewrite rtrace_snoc, Ecalls, <- app_assoc. done. }
    (* the replay *)
    destruct (create_case max gone t2 c' (rk_pid a) off id' pid' o1 o2 He3 Hp3) as [[st E]|(x&lm&Er&E&Ex&Hex)]; fold back in E.
    { exfalso. rewrite E in Ha2. cbn in Ha2. rewrite list_lookup_middle in Ha2 by done. injection Ha2 as <-. done. }
    pose proof (env_ok_snoc _ _ _ _ He3) as [_ (O1&O2&Hf)].
    destruct (replay_exact max (rtrace max gone) t2 o1 (rk_pid a) off x lm) as ([u Hu]&_&Hrep);
      [done|eapply rtrace_timed, env_rtimed; exact He3|by apply rtrace_proper|unfold ids_distinct; rewrite rtrace_emissions; apply He2|done|].
    destruct (saved_unique _ _ _ _ _ _ Hu Hsaved) as [-> _]. cbn [se_rooms] in Hrep.
    assert (lm = wire_data <$> (aimed_at R h1 ++ aimed_at R h2)) as ->.
    { rewrite (Hrep (emissions h0) (off, t0, b0) (emissions h1 ++ emissions h2)); [by rewrite filter_app| |done].
      rewrite rtrace_emissions. unfold gone, before. rewrite !emissions_app. change ((t0, REmit off b0 os0) :: h1) with ([(t0, REmit off b0 os0)] ++ h1).
      change ((t1, RClose k cz o) :: h2) with ([(t1, RClose k cz o)] ++ h2). rewrite !emissions_app. unfold emissions at 2 4. csimpl. rewrite decide_True by done. rewrite <- !app_assoc. done. }
    set (a0 := RSock (rk_id a) (rk_pid a) c' (rk_data a1) true false true) in *.
    assert (r_heap (rrun true max back) = r_heap (rrun true max gone) ++ [a0]) as Eh.
    { rewrite E. unfold create_recovered. cbv zeta. cbn [send set_heap r_heap se_sid se_pid se_data se_rooms]. fold a0. f_equal. by destruct (joins_frame a0 (o2 R) (rrun true max gone)) as (_&_&?&_). }
    assert (r_heap (rrun true max back) !! k' = Some a0) as Hk0. { rewrite Eh. by apply list_lookup_middle. }
    assert (received (rrun true max back) c' = wire_data <$> (aimed_at R h1 ++ aimed_at R h2)) as Erb.
    { rewrite E. unfold create_recovered. cbv zeta. cbn [se_sid se_pid se_data se_rooms]. fold a0. rewrite received_send, decide_True by done.
      rewrite (received_ext (rrun true max gone)); [|by destruct (joins_frame a0 (o2 R) (rrun true max gone)) as (_&_&_&?)].
      rewrite received_fresh; [|done|done|intros b Hb; by apply Hf]. simpl. generalize (wire_data <$> (aimed_at R h1 ++ aimed_at R h2)). intros lm. induction lm as [|d lm IH]; csimpl; [done|]. by rewrite IH. }
    (* admitted *)
    pose proof (idle_segment max back hw k' a0 He3' Hp3' Hk0 eq_refl Hnof) as L1. cbn [a0 rk_client] in L1.
    destruct (segment_sock max back hw k' a0 He3' Hp3' Hk0) as (a4&Ha4&(M1&M2&M3)&_&_&M4). specialize (M4 Hnof eq_refl).
    pose proof (env_ok_snoc _ _ _ _ He4) as [_ Heo4]. pose proof (rrun_inv _ _ He3' Hp3') as Hi3.
    destruct (step_sock (t3, RFinish k') _ k' a4 Hi3 Heo4 Ha4) as (a5&Ha5&(N1&N2&N3)&Nj&_). rewrite <- rrun_snoc in Ha5. fold admitted in Ha5.
    pose proof (step_received (t3, RFinish k') _ k' a4 Hi3 Heo4 Ha4) as L2. rewrite M4, app_nil_r, <- rrun_snoc in L2. fold admitted in L2. rewrite M3 in L2. cbn [a0 rk_client] in L2.
    assert (rk_connected a5 = true) as Hc5.
    { destruct (rk_can_join a4) eqn:Ej.
      - unfold admitted in Ha5. rewrite rrun_snoc in Ha5. unfold rstep in Ha5. cbn [fst snd] in Ha5. rewrite Ha4, M4, Ej in Ha5. cbn [negb andb] in Ha5. unfold finish in Ha5. cbn [send r_heap] in Ha5.
        match type of Ha5 with r_heap (join ?a ?rs ?s) !! _ = _ => destruct (join_frame a rs s) as (_&_&EE&_); rewrite EE in Ha5 end. cbn [set_heap r_heap] in Ha5. apply list_lookup_insert_Some in Ha5 as [(_&<-&_)|[? _]]; done.
      - exfalso. specialize (Nj eq_refl). destruct (segment_sock max admitted h3 k' a5 He Hp Ha5) as (a6&Ha6&_&Hj6&_). fold whole in Ha6. assert (a6 = a3) as -> by congruence.
        pose proof (ri_conn _ (rrun_inv _ _ He Hp) _ _ Ha3 Hc3). rewrite Hj6 in * by done. done. }
    pose proof (live_segment max admitted h3 k' a5 a3 He Hp Ha5 Hc5 Ha3 Hc3) as L3. fold whole in L3. rewrite N3, M3, N1, M1 in L3. cbn [a0 rk_client rk_id] in L3.
    assert (received (rrun true max whole) c' = wire_data <$> (aimed_at R h1 ++ aimed_at R h2 ++ aimed_live true max admitted (rk_id a) h3)) as Efin.
    { rewrite L3, L2, L1, Erb. by rewrite !fmap_app, <- app_assoc. }
    split; [exact Efin|]. rewrite Efin. apply NoDup_wire. pose proof (env_ids _ _ _ He) as Hnd.
    assert ((aimed_at R h1 ++ aimed_at R h2 ++ aimed_live true max admitted (rk_id a) h3) `sublist_of` emissions whole) as Hsub.
    { unfold whole, admitted, back, gone, before. rewrite !emissions_app. change ((t0, REmit off b0 os0) :: h1) with ([(t0, REmit off b0 os0)] ++ h1). change ((t1, RClose k cz o) :: h2) with ([(t1, RClose k cz o)] ++ h2). rewrite !emissions_app, <- !app_assoc.
      apply sublist_inserts_l, sublist_inserts_l. apply sublist_app; [apply sublist_filter'|]. apply sublist_inserts_l, sublist_app; [apply sublist_filter'|]. apply sublist_inserts_l, sublist_inserts_l, sublist_inserts_l, aimed_live_sub. }
    eapply sublist_NoDup'; [|exact Hnd]. by apply sublist_fmap'.
  Qed.
End reconnection.

(** ** C32 *)
Lemma close_saves csr t k a c o s : r_heap s !! k = Some a → rk_connected a = true →
  st_sessions (r_store (rstep csr (t, RClose k c o) s)) =
  if csr && bool_decide (reason_of c ∈ recoverable_reasons)
  then <[rk_pid a := (Session (rk_id a) (rk_pid a) (rooms_of (r_reg s) (rk_id a)) (rk_data a), t)]> (st_sessions (r_store s)) else st_sessions (r_store s).
Proof. intros Ha Hc. unfold rstep. cbn [fst snd]. rewrite Ha, Hc. unfold onclose. destruct c, (csr && _); done. Qed.
Lemma apply_store w orm oid oall rooms except s : r_store (apply_sockets r_reg r_nsock (deliver w) orm oid oall rooms except s).1 = r_store s.
Proof.
  assert (∀ k s, r_store (deliver w k s) = r_store s) as Hd by (intros k s0; apply deliver_frame).
  unfold apply_sockets. cbv zeta.
  set (P := λ x : rstate * list sid, r_store x.1 = r_store s).
  assert (∀ ex l x, P x → P (foldl (visit_all r_nsock (deliver w) ex) x l)) as H1.
  { intros ex l. induction l as [|i l IH]; intros x Hx; [done|]. apply IH. unfold visit_all, P in *. destruct x as [s0 v]. cbn [fst] in *. repeat case_match; simpl in *; rewrite ?Hd; done. }
  assert (∀ oid ex l x, P x → P (foldl (visit_room r_reg r_nsock (deliver w) oid ex) x l)) as H2.
  { intros oi ex l. induction l as [|r l IH]; intros x Hx; [done|]. apply IH. unfold visit_room. destruct (rg_rooms (r_reg x.1) !! r); [|done].
    generalize (oi r g). intros l'. revert x Hx. induction l' as [|i l' IH']; intros x Hx; [done|]. apply IH'. unfold visit_id, P in *. destruct x as [s0 v]. cbn [fst] in *. repeat case_match; simpl in *; rewrite ?Hd; done. }
  destruct rooms as [rs|]; [destruct (decide _)|]; [apply (H2 _ _ _ (s, []))|apply (H1 _ _ (s, []))|apply (H1 _ _ (s, []))]; done.
Qed.
Lemma only_close_saves csr e s : (∀ k c o, e.2 ≠ RClose k c o) → st_sessions (r_store (rstep csr e s)) ⊆ st_sessions (r_store s).
Proof.
  intros Hn. destruct e as [t op]. cbn [snd] in Hn. unfold rstep. cbn [fst snd].
  destruct op as [c auth id pid o1 o2|j|j o|j rs|j r|j v|pk b os|j c o|].
  - unfold create. destruct auth as [[p off]|], csr; try done.
    assert (st_sessions (restore o1 t p off (r_store s)).1 ⊆ st_sessions (r_store s)) as Hs.
    { apply map_subseteq_spec. intros q [x u]. apply restore_sub. }
    destruct (restore o1 t p off (r_store s)) as [st r]. cbn [fst] in Hs. destruct r as [|x l|]; [done| |done].
    unfold create_recovered. cbv zeta. cbn [send set_heap r_store]. by destruct (joins_frame (RSock (se_sid x) (se_pid x) c (se_data x) true false true) (o2 (se_rooms x)) (set_store st s)) as (->&_).
  - destruct (r_heap s !! j) as [b|]; [|done]. destruct (_ && _); [|done]. unfold finish. cbn [send r_store].
    match goal with |- context [join ?a ?rs ?s] => destruct (join_frame a rs s) as (->&_) end. done.
  - destruct (r_heap s !! j) as [b|]; [|done]. by destruct (_ && _).
  - destruct (r_heap s !! j) as [b|]; [|done]. by destruct (join_frame b rs s) as (->&_).
  - by destruct (r_heap s !! j).
  - by destruct (r_heap s !! j).
  - unfold emit. destruct csr; [|by rewrite apply_store]. pose proof (sbroadcast_sessions t pk b (r_store s)) as Hs.
    destruct (sbroadcast t pk b (r_store s)) as [st d]. cbn [fst] in Hs. rewrite apply_store. cbn [set_store r_store]. by rewrite Hs.
  - by destruct (Hn j c o).
  - destruct csr; [|done]. cbn [set_store r_store cleanup st_sessions]. apply map_filter_subseteq.
Qed.
Lemma saved_iff_reason csr max h t k c o a :
  let s := rrun csr max h in
  let s' := rrun csr max (h ++ [(t, RClose k c o)]) in
  r_heap s !! k = Some a → rk_connected a = true →
  (csr = true ∧ recoverable_cause c →
    st_sessions (r_store s') = <[rk_pid a := (Session (rk_id a) (rk_pid a) (rooms_of (r_reg s) (rk_id a)) (rk_data a), t)]> (st_sessions (r_store s))) ∧
  (¬ (csr = true ∧ recoverable_cause c) →
    st_sessions (r_store s') = st_sessions (r_store s)).
Proof.
  intros s s' Ha Hc. unfold s'. rewrite rrun_snoc. fold s. rewrite (close_saves csr t k a c o s Ha Hc), <- recoverable_iff. split.
  - intros [-> H]. by rewrite bool_decide_eq_true_2.
  - intros H. destruct csr; [|done]. rewrite bool_decide_eq_false_2 by tauto. done.
Qed.
Lemma explicit_never csr max h t k c o : c = ByServer ∨ c = ByClient → st_sessions (r_store (rrun csr max (h ++ [(t, RClose k c o)]))) = st_sessions (r_store (rrun csr max h)).
Proof.
  intros Hc. rewrite rrun_snoc. destruct (r_heap (rrun csr max h) !! k) as [a|] eqn:Ha; [destruct (rk_connected a) eqn:Hco|].
  - rewrite (close_saves _ _ _ _ _ _ _ Ha Hco), bool_decide_eq_false_2; [by rewrite andb_false_r|]. rewrite reasons_listed, !elem_of_cons, elem_of_nil. destruct Hc as [-> | ->]; cbn [reason_of]; naive_solver.
  - unfold rstep. cbn [fst snd]. by rewrite Ha, Hco.
  - unfold rstep. cbn [fst snd]. by rewrite Ha.
Qed.
Lemma only_on_close csr max h e : (∀ k c o a, e.2 = RClose k c o → r_heap (rrun csr max h) !! k = Some a → rk_connected a = false) →
  st_sessions (r_store (rrun csr max (h ++ [e]))) ⊆ st_sessions (r_store (rrun csr max h)).
Proof.
  intros H. rewrite rrun_snoc. destruct e as [t op]. destruct op; try (apply only_close_saves; done).
  unfold rstep. cbn [fst snd]. destruct (r_heap (rrun csr max h) !! k) as [a|] eqn:Ha; [|done]. by rewrite (H _ _ _ _ eq_refl Ha).
Qed.
