(** Refusals, connections and disconnections (C19-C23, C25, C26). *)
From Verif Require Import Base GoTypes Rooms RoomsSpec RoomsProofs Adapter Session System SystemSpec SystemProofs SystemLife SystemPolite.

Section claims.
  Context (csr skip clean : bool).
  Notation sstep := (step csr skip clean).
  Notation srun := (run csr skip clean).
  Notation envok := (env_ok csr skip clean).
  Notation nice := (polite csr skip clean).
  Notation anyprim := (prim csr clean (λ _ _, True) (λ _ _, True) (λ _, True)).
  Notation cprim := (cprim csr clean).

  (** ** A socket in the table of a client was connected *)
  Definition invK (s : sys) : Prop := ∀ c m k, cnsps_of s.1 c !! m = Some k → lives k s.2 ≠ [].
  Lemma prim_cnsps s s' c m k : anyprim s s' → cnsps_of s'.1 c !! m = Some k → cnsps_of s.1 c !! m = Some k ∨ lives k s'.2 ≠ [].
  Proof.
    intros P. destruct P; try (by left).
    - destruct H; try (by left).
      + left. by rewrite <- (cnsps_alter cl_shut c0 s.1 c).
      + left. by rewrite <- (cnsps_alter cl_no_timer c0 s.1 c).
      + rewrite (onclose_cnsps csr clean _ _ _ a) by done. intros H'. left. destruct (csocks_of s.1 (sk_client a) !! sk_id a); [|done].
        case_decide; [|done]. by apply lookup_delete_Some in H' as [_ ?].
    - unfold cnsps_of. cbn. intros H. left. destruct (decide (c < length (c_clients s.1))); [by rewrite lookup_app_l in H|].
      rewrite lookup_app_r in H by lia. destruct (c - _) as [|[]]; done.
    - unfold join. destruct (c_socks s.1 !! k0) as [b|]; [|by left]. destruct (sk_can_join b); by left.
    - unfold leave. destruct (c_socks s.1 !! k0) as [b|]; by left.
    - rewrite (do_connect_eq _ a) by done. intros H'. unfold cnsps_of in *. cbn in H'. rewrite alter_lookup in H'. case_decide; [subst|by left].
      destruct (c_clients s.1 !! sk_client a) as [cl|]; [|done]. cbn in H'. apply lookup_insert_Some in H' as [[_ <-]|[_ ?]]; [|by left].
      right. cbn [snd]. rewrite lives_app. cbn. rewrite !decide_True by done. intros []%app_eq_nil. done.
    - unfold cnsps_of. rewrite cleanup_clients. by left.
    - unfold create_child. rewrite H1. by left.
  Qed.
  Lemma run_K h : envok h → invK (srun h).
  Proof.
    apply run_inv; [intros c m k H; by destruct c|]. intros s s' P A K c m k H.
    destruct (prim_cnsps s s' c m k P H) as [H'|?]; [|done]. apply K in H'.
    destruct (prim_added _ _ _ _ _ _ _ P) as (l & -> & _). rewrite lives_app. by intros [? _]%app_eq_nil.
  Qed.

  (** ** C19 *)
  Lemma refused_step os k err s a : c_socks s.1 !! k = Some a → sk_connected a = false → invA s.1 → sords_ok os →
    (err ≠ None ∨ is_open s.1 (sk_client a) = false) →
    let s' := sstep (os, OVerdict k err) s in
    c_socks s'.1 !! k = Some (sk_set false false a) ∧ rooms_sock s'.1 k = ∅ ∧ socks_of s'.1 (sk_nsp a) !! sk_id a = None ∧
    s'.2 = s.2 ++ (if is_open s.1 (sk_client a) then (λ e, (s'.1, EWrite (sk_client a) (Packet CONNECT_ERROR (name_of s.1 (sk_nsp a)) [e] None))) <$> option_list err else []).
  Proof.
    intros Ek Ec A Hos Hd. cbn [step fst snd]. unfold verdict. rewrite Ek.
    assert (c_socks (cleanup clean os k s).1 !! k = Some (sk_set false false a)) as F1.
    { rewrite cleanup_socks, list_lookup_alter, Ek. cbn. by rewrite Ec. }
    assert (rooms_sock (cleanup clean os k s).1 k = ∅) as F2.
    { unfold rooms_sock, reg_of. rewrite F1. cbn. rewrite (cleanup_nsps _ _ _ a) by done. rewrite list_lookup_alter.
      destruct (c_nsps s.1 !! sk_nsp a) as [np|]; [|done]. cbn. unfold rooms_of. by rewrite del_all_sids, lookup_delete. }
    assert (socks_of (cleanup clean os k s).1 (sk_nsp a) !! sk_id a = None) as F3.
    { unfold socks_of. rewrite (cleanup_nsps _ _ _ a) by done. rewrite list_lookup_alter.
      destruct (c_nsps s.1 !! sk_nsp a) as [np|]; [|done]. cbn. by rewrite lookup_delete. }
    destruct (is_open s.1 (sk_client a)) eqn:Eo.
    - destruct err as [e|]; [|by destruct Hd]. cbv zeta. rewrite sock_packet_core. split_and!; [done..|].
      unfold sock_packet. rewrite F1. cbn [sk_client sk_nsp sk_set]. unfold write. unfold is_open. rewrite cleanup_clients.
      unfold is_open in Eo. rewrite Eo. cbn. rewrite cleanup_log. unfold name_of. rewrite (cleanup_nsps _ _ _ a) by done. rewrite list_lookup_alter.
      by destruct (c_nsps s.1 !! sk_nsp a).
    - cbv zeta. rewrite cleanup_log, app_nil_r. done.
  Qed.
  Lemma closed_on_client s k : invA s.1 → invK s → closed s.1 k → lives k s.2 = [] → ¬ on_client s.1 k.
  Proof.
    intros A K Hc Hl (c & [[i H]|[m H]]).
    - apply (closed_not_listed _ k A) in Hc as [_ Hc]. apply Hc. eauto.
    - by apply K in H.
  Qed.
  Lemma join_closed os k rs s : closed s.1 k → sstep (os, OJoin k rs) s = s.
  Proof. intros (a & Ek & _ & Ej). cbn. unfold join. by rewrite Ek, Ej. Qed.
  Lemma c19_refused_l h1 os k err h2 a : envok (h1 ++ (os, OVerdict k err) :: h2) → c_socks (srun h1).1 !! k = Some a →
    (err ≠ None ∨ is_open (srun h1).1 (sk_client a) = false) →
    let s1 := srun (h1 ++ [(os, OVerdict k err)]) in let s := srun (h1 ++ (os, OVerdict k err) :: h2) in
    rooms_sock s1.1 k = ∅ ∧ socks_of s1.1 (sk_nsp a) !! sk_id a = None ∧
    s1.2 = (srun h1).2 ++ (if is_open (srun h1).1 (sk_client a) then
      (λ e, (s1.1, EWrite (sk_client a) (Packet CONNECT_ERROR (name_of (srun h1).1 (sk_nsp a)) [e] None))) <$> option_list err else []) ∧
    closed s.1 k ∧ ¬ listed s.1 k ∧ ¬ on_client s.1 k ∧ lives k s.2 = [] ∧ (sole s.1 k → rooms_sock s.1 k = ∅) ∧
    (∀ os' rs, sstep (os', OJoin k rs) s = s).
  Proof.
    intros He Ek Hd. assert (h1 ++ (os, OVerdict k err) :: h2 = (h1 ++ [(os, OVerdict k err)]) ++ h2) as E by (by rewrite <- app_assoc).
    destruct (He h1 _ h2 eq_refl) as [Hos (a' & Ea' & Hc & Hj)]. cbn in Hos. rewrite Ek in Ea'. injection Ea' as <-.
    rewrite E in *. assert (envok (h1 ++ [(os, OVerdict k err)])) as He1 by (by eapply env_app). 
    assert (envok h1) as He0 by (by eapply env_app). destruct (run_B _ _ _ _ He0) as [A0 B0].
    destruct (refused_step os k err (srun h1) a Ek Hc A0 Hos Hd) as (F1 & F2 & F3 & F4).
    cbv zeta. rewrite <- run_snoc in F1, F2, F3, F4. split; [done|]. split; [done|]. split; [done|].
    assert (closed (srun (h1 ++ [(os, OVerdict k err)])).1 k) as Hcl by (by exists (sk_set false false a)).
    pose proof (closed_stays _ _ _ _ _ _ He Hcl) as Hcl'. destruct (run_B _ _ _ _ He) as [A B].
    assert (lives k (srun h1).2 = []) as L0.
    { specialize (B0 k). rewrite Ek in B0. cbn in B0. rewrite Hc in B0. destruct B0 as [?|[? _]]; [done|congruence]. }
    assert (lives k (srun ((h1 ++ [(os, OVerdict k err)]) ++ h2)).2 = []) as L.
    { rewrite (closed_lives _ _ _ _ _ _ He Hcl), F4, lives_app, L0. cbn. destruct (is_open _ _), err; done. }
    split_and!.
    - done.
    - by apply closed_not_listed.
    - apply closed_on_client; [done|by apply run_K|done..].
    - done.
    - by apply closed_no_rooms.
    - intros os' rs. by apply join_closed.
  Qed.

  (** ** C20 *)
  Definition once (l : list life) : Prop := l = [] ∨ ∃ l', l = LConnect :: LConnection :: l' ∧ LConnect ∉ l' ∧ LConnection ∉ l'.
  Lemma lives_once s k : invB s → once (lives k s.2).
  Proof.
    intros B. specialize (B k). destruct (c_socks s.1 !! k) as [a|]; cbn in B; [|by left].
    assert (∀ ps, LConnect ∉ map LEvent ps ∧ LConnection ∉ map LEvent ps) as Hp.
    { intros ps. split; intros (p & ? & _)%elem_of_list_fmap; done. }
    destruct (sk_connected a).
    - destruct B as (ps & ->). right. eexists. split; [done|]. apply Hp.
    - destruct B as [->|[_ (ps & r & ->)]]; [by left|]. right. eexists. split; [done|]. destruct (Hp ps).
      rewrite !elem_of_app, !elem_of_cons, !elem_of_nil. naive_solver.
  Qed.

  (** ** C21: closing one after the other *)
  Lemma closed_no_disconnecting k s s' l1 x r l2 : rtc anyprim s s' → closed s.1 k → s'.2 = s.2 ++ l1 ++ (x, EDisconnecting k r) :: l2 → False.
  Proof.
    intros Hr Hc E. assert (lives k s'.2 = lives k s.2) as H.
    { clear E. induction Hr as [|y z w P _ IH]; [done|]. rewrite IH; [by eapply closed_lives_prim|by eapply closed_prim]. }
    rewrite E, !lives_app in H. cbn in H. rewrite decide_True in H by done. apply (f_equal length) in H. rewrite !app_length in H. cbn in H. lia.
  Qed.
  Lemma crtc_any Q s s' : rtc (cprim Q) s s' → rtc anyprim s s'.
  Proof.
    induction 1 as [|? ? ? P _ IH]; [done|]. eapply rtc_l; [|done]. apply pr_c. destruct P; econstructor; eauto; done.
  Qed.
  Lemma reg_onclose os reason k a s n i : c_socks s.1 !! k = Some a → sk_connected a = true → sords_ok os → invA s.1 → (n ≠ sk_nsp a ∨ i ≠ sk_id a) →
    rooms_of (reg_of (onclose csr clean os reason k s).1 n) i = rooms_of (reg_of s.1 n) i.
  Proof.
    intros Ek Ec Hos A Hd. unfold reg_of. rewrite (onclose_nsps csr clean _ _ _ a) by done. rewrite alter_lookup. case_decide; [subst|done].
    destruct (c_nsps s.1 !! sk_nsp a) as [np|]; [|done]. cbn. unfold rooms_of. rewrite del_all_sids, lookup_delete_ne; [done|]. naive_solver.
  Qed.
  (** Closing other sockets does not touch the rooms of an open one. *)
  Lemma cprim_rooms Q s s' k a : cprim Q s s' → invPC s.1 → c_socks s'.1 !! k = Some a → sk_can_join a = true →
    c_socks s.1 !! k = Some a ∧ rooms_sock s'.1 k = rooms_sock s.1 k.
  Proof.
    intros P PC. destruct P; cbn; try done. destruct PC as [A I Pp N].
    rewrite (onclose_socks csr clean _ _ _ a0) by done. rewrite alter_lookup. case_decide as Hk.
    { subst. rewrite H1. intros [= <-]. done. }
    intros Hka Hj. split; [done|]. unfold rooms_sock. rewrite (onclose_socks csr clean _ _ _ a0) by done. rewrite list_lookup_alter_ne, Hka by done.
    apply reg_onclose with a0; try done. right. destruct (Pp k k0 a a0) as [? _]; try done. by eapply (ia_live _ A).
  Qed.
  Lemma c21_rooms Q s s' l1 x k r l2 : rtc (cprim Q) s s' → invPC s.1 → s'.2 = s.2 ++ l1 ++ (x, EDisconnecting k r) :: l2 →
    rooms_sock x k = rooms_sock s.1 k ∧ connected s.1 k.
  Proof.
    intros Hr. revert l1. induction Hr as [s|s y s' P Hr IH]; intros l1 PC E.
    { exfalso. apply (f_equal length) in E. rewrite !app_length in E. cbn in E. lia. }
    pose proof (cprim_PC _ _ _ _ _ P PC) as PCy.
    assert (prim csr clean Q (λ _ _, True) (λ _, True) s y) as P' by (by apply pr_c).
    destruct (prim_added _ _ _ _ _ _ _ P') as (l & El & Hl).
    assert (∃ l', s'.2 = y.2 ++ l') as [l' El'].
    { apply crtc_any in Hr. clear -Hr. induction Hr as [|? ? ? P _ (l' & IH)]; [exists []; by rewrite app_nil_r|].
      destruct (prim_added _ _ _ _ _ _ _ P) as (l & El & _). rewrite IH, El. exists (l ++ l'). by rewrite app_assoc. }
    rewrite El', El, <- app_assoc in E. apply app_inv_head in E. apply app_cases in E as [(t & -> & E)|(t & -> & E)].
    - (* in this transition *)
      destruct Hl as [|e He|j a p HQ E1 E2 Es|j a fns E1 E2 E3 Ho Es ->|os reason j a HQ Hos E1 E2 Es].
      + by destruct l1.
      + destruct l1 as [|? []]; [|done..]. injection E as <- -> _. done.
      + destruct l1 as [|? []]; [|done..]. injection E as <- ? _. done.
      + destruct l1 as [|? [|? [|? []]]]; injection E; done.
      + unfold close_logs in E. assert (x = s.1 ∧ k = j) as [-> ->].
        { destruct (csr && _); (destruct l1 as [|? [|? [|? []]]]; injection E; intros; simplify_eq; done). }
        split; [done|]. by exists a.
    - (* later *)
      destruct (IH t PCy) as [Er (a & Ea & Ec)]; [by rewrite El', E|].
      destruct (cprim_rooms Q s y k a P PC Ea) as [Ea' Er']; [by eapply (ia_live _ (pc_a _ PCy))|].
      split; [by rewrite Er|]. by exists a.
  Qed.
  (** Steps that are not closing do not disconnect. *)
  Lemma noclose Q C D s s' : rtc (prim csr clean Q C D) s s' → (∀ r a, ¬ Q r a) → ∀ l x k r, s'.2 = s.2 ++ l → (x, EDisconnecting k r) ∉ l.
  Proof.
    intros Hr HQ. induction Hr as [s|s y s' P Hr IH]; intros l x k r E.
    { rewrite <- (app_nil_r s.2) in E at 1. apply app_inv_head in E as <-. by intros ?%elem_of_nil. }
    destruct (prim_added _ _ _ _ _ _ _ P) as (l0 & El & Hl).
    assert (∃ l', s'.2 = y.2 ++ l') as [l' El'].
    { clear -Hr. induction Hr as [|? ? ? P _ (l' & IH)]; [exists []; by rewrite app_nil_r|].
      destruct (prim_added _ _ _ _ _ _ _ P) as (l & El & _). rewrite IH, El. exists (l ++ l'). by rewrite app_assoc. }
    specialize (IH l' x k r El'). rewrite El', El, <- app_assoc in E. apply app_inv_head in E as <-. rewrite elem_of_app. intros [H|H]; [|done].
    destruct Hl as [|e He|j a p Hq E1 E2 Es|j a fns E1 E2 E3 Ho Es ->|os reason j a Hq Hos E1 E2 Es].
    - by apply elem_of_nil in H.
    - apply elem_of_list_singleton in H as [= -> <-]. done.
    - by apply HQ in Hq.
    - repeat (apply elem_of_cons in H as [H|H]; [done|]). by apply elem_of_nil in H.
    - by apply HQ in Hq.
  Qed.

  Lemma lives_grow s s' k : rtc anyprim s s' → ∃ l, lives k s'.2 = lives k s.2 ++ l.
  Proof.
    induction 1 as [|x y z P _ [l IH]]; [exists []; by rewrite app_nil_r|]. destruct (prim_added _ _ _ _ _ _ _ P) as (l' & E & _).
    exists (lives k l' ++ l). by rewrite IH, E, lives_app, app_assoc.
  Qed.
  Lemma log_grow Q C D s s' : rtc (prim csr clean Q C D) s s' → ∃ l, s'.2 = s.2 ++ l.
  Proof.
    induction 1 as [|x y z P _ [l IH]]; [exists []; by rewrite app_nil_r|]. destruct (prim_added _ _ _ _ _ _ _ P) as (l' & E & _).
    exists (l' ++ l). by rewrite IH, E, app_assoc.
  Qed.
  Lemma c21_rooms_l h e l1 x k r l2 : envok (h ++ [e]) → nice h → (srun (h ++ [e])).2 = (srun h).2 ++ l1 ++ (x, EDisconnecting k r) :: l2 →
    rooms_sock x k = rooms_sock (srun h).1 k.
  Proof.
    intros He Hn E. apply env_snoc in He as [He Ho]. pose proof (run_PC _ _ _ _ He Hn) as PC. rewrite run_snoc in E.
    destruct (closing_step (srun h) e) eqn:Ecl.
    - assert (rtc (cprim (λ _ _, True)) (srun h) (sstep e (srun h))) as Hr by (apply step_cprims; [done|done|done|apply Ho|apply PC]).
      by apply (c21_rooms _ _ _ _ _ _ _ _ Hr PC E).
    - exfalso. assert (rtc (prim csr clean (λ _ _, False) (λ _ _, True) (λ _, True)) (srun h) (sstep e (srun h))) as Hr.
      { apply step_oprims; try done. apply PC. }
      apply (noclose _ _ _ _ _ Hr (λ _ _ H, H) _ x k r E). rewrite elem_of_app, elem_of_cons. auto.
  Qed.

  (** ** C22 *)
  Lemma disconnected_closed h k r x : envok h → (x, EDisconnect k r) ∈ (srun h).2 → closed (srun h).1 k.
  Proof.
    intros He Hin. destruct (run_B _ _ _ _ He) as [A B]. specialize (B k).
    assert (LDisconnect r ∈ lives k (srun h).2) as Hl.
    { apply elem_of_list_omap. exists (x, EDisconnect k r). split; [done|]. cbn. by rewrite decide_True. }
    assert (∀ ps, LDisconnect r ∉ LConnect :: LConnection :: map LEvent ps) as Hp.
    { intros ps. rewrite !elem_of_cons. intros [?|[?|(p & ? & _)%elem_of_list_fmap]]; done. }
    destruct (c_socks (srun h).1 !! k) as [a|] eqn:Ek; cbn in B; [|rewrite B in Hl; by apply elem_of_nil in Hl].
    destruct (sk_connected a) eqn:Ec.
    - destruct B as (ps & B). rewrite B in Hl. by apply Hp in Hl.
    - destruct B as [B|[Hj _]]; [rewrite B in Hl; by apply elem_of_nil in Hl|]. by exists a.
  Qed.
  Lemma closed_target x k n opts : closed x k → ¬ target x n opts k.
  Proof. intros (a & E & Hc & _) (b & Eb & Hb & _). congruence. Qed.
  Lemma c22_inert_l h1 h2 k r x : envok (h1 ++ h2) → (x, EDisconnect k r) ∈ (srun h1).2 →
    let s := srun (h1 ++ h2) in
    closed s.1 k ∧ ¬ listed s.1 k ∧ (∀ c i, csocks_of s.1 c !! i ≠ Some k) ∧ (ids_ok s.1 → ¬ on_client s.1 k) ∧
    (sole s.1 k → rooms_sock s.1 k = ∅) ∧ (∀ os rs, sstep (os, OJoin k rs) s = s) ∧ (∀ n opts, ¬ target s.1 n opts k) ∧
    lives k s.2 = lives k (srun h1).2.
  Proof.
    intros He Hin. assert (envok h1) as He1 by (by eapply env_app).
    pose proof (disconnected_closed _ _ _ _ He1 Hin) as Hc1. pose proof (closed_stays _ _ _ _ _ _ He Hc1) as Hc.
    destruct (run_B _ _ _ _ He) as [A B]. destruct (closed_not_listed _ _ A Hc) as [F1 F2]. split_and!.
    - done.
    - done.
    - intros c i H. apply F2. eauto.
    - intros I (c & [[i H]|[m H]]); [apply F2; eauto|]. apply (run_N _ _ _ _ He I) in H as [(a & Ha & Ha' & _) _].
      destruct Hc as (b & Hb & Hb' & _). congruence.
    - by apply closed_no_rooms.
    - intros os rs. by apply join_closed.
    - intros n opts. by apply closed_target.
    - by apply closed_lives.
  Qed.

  (** ** C23 *)
  Lemma cprim_back Q s s' k a : cprim Q s s' → c_socks s'.1 !! k = Some a →
    ∃ a0, c_socks s.1 !! k = Some a0 ∧ sk_client a = sk_client a0 ∧ (sk_connected a = true → a0 = a).
  Proof.
    intros P. destruct P; cbn; eauto. rewrite (onclose_socks csr clean _ _ _ a0) by done. rewrite alter_lookup. case_decide; eauto.
    subst. rewrite H1. intros [= <-]. exists a0. done.
  Qed.
  Lemma crtc_back Q s s' k a : rtc (cprim Q) s s' → c_socks s'.1 !! k = Some a →
    ∃ a0, c_socks s.1 !! k = Some a0 ∧ sk_client a = sk_client a0 ∧ (sk_connected a = true → a0 = a).
  Proof.
    intros Hr. revert a. induction Hr as [s|s y s' P Hr IH]; intros a Ha; [eauto|].
    destruct (IH a Ha) as (a1 & E1 & E2 & E3). destruct (cprim_back _ _ _ _ _ P E1) as (a0 & G1 & G2 & G3). exists a0. split_and!; [done|congruence|].
    intros Hc. pose proof (E3 Hc) as ->. auto.
  Qed.
  Definition fate (Q : option string → sock → Prop) (s s' : sys) (k : nat) (a : sock) : Prop :=
    (c_socks s'.1 !! k = Some a ∧ lives k s'.2 = lives k s.2) ∨
    (∃ r, sk_connected a = true ∧ Q (Some r) a ∧ c_socks s'.1 !! k = Some (sk_set false false a) ∧ lives k s'.2 = lives k s.2 ++ [LDisconnecting r; LDisconnect r]).
  Lemma cprim_fate Q s s' k a : (∀ a, ¬ Q None a) → cprim Q s s' → c_socks s.1 !! k = Some a → fate Q s s' k a.
  Proof.
    intros HQ P Ek. destruct P; try (by left).
    - left. split; [done|]. unfold log. cbn [snd]. rewrite lives_app.
      assert (lives k [(s.1, e)] = []) as -> by (by destruct e). by rewrite app_nil_r.
    - by apply HQ in H.
    - by apply HQ in H.
    - unfold fate. rewrite (onclose_log csr clean _ _ _ a0), !lives_app by done. rewrite (onclose_socks csr clean _ _ _ a0) by done.
      unfold close_logs. destruct (decide (k0 = k)) as [->|Hne].
      + right. exists reason. rewrite Ek in H1. injection H1 as <-. split_and!; [done|done|by rewrite list_lookup_alter, Ek|].
        f_equal. destruct (csr && _); cbn; by rewrite !decide_True.
      + left. split; [by rewrite list_lookup_alter_ne|]. destruct (csr && _); cbn; rewrite !decide_False by done; by rewrite app_nil_r.
  Qed.
  Lemma crtc_fate Q s s' k a : (∀ a, ¬ Q None a) → rtc (cprim Q) s s' → c_socks s.1 !! k = Some a → fate Q s s' k a.
  Proof.
    intros HQ Hr. revert a. induction Hr as [s|s y s' P Hr IH]; intros a Ek; [by left|].
    destruct (cprim_fate Q s y k a HQ P Ek) as [[E1 L1]|(r & Ec & Hq & E1 & L1)].
    - destruct (IH a E1) as [[E2 L2]|(r & Ec & Hq & E2 & L2)]; [left; split; congruence|].
      right. exists r. split_and!; try done. by rewrite L2, L1.
    - right. exists r. split_and!; try done.
      + destruct (IH _ E1) as [[E2 L2]|(? & Ec' & _)]; done.
      + destruct (IH _ E1) as [[E2 L2]|(? & Ec' & _)]; [congruence|done].
  Qed.
  Lemma crtc_rooms Q s s' k a : rtc (cprim Q) s s' → invPC s.1 → c_socks s'.1 !! k = Some a → sk_can_join a = true →
    rooms_sock s'.1 k = rooms_sock s.1 k.
  Proof.
    intros Hr. induction Hr as [s|s y s' P Hr IH]; intros PC Ek Ej; [done|].
    pose proof (cprim_PC _ _ _ _ _ P PC) as PCy. rewrite IH by done.
    assert (c_socks y.1 !! k = Some a) as Ey.
    { clear -Hr Ek Ej PCy. induction Hr as [s|s y s' P Hr IH]; [done|].
      eapply cprim_rooms; [done|done|apply IH; [done|]|done]. by eapply cprim_PC. }
    by eapply cprim_rooms.
  Qed.
  Lemma sweep s s' c r : invPC s.1 → rtc (cprim (λ o a, o = Some r ∧ sk_client a = c)) s s' →
    (∀ k a, c_socks s'.1 !! k = Some a → sk_client a = c → sk_connected a = false) → swept s s' c r.
  Proof.
    intros PC Hr Hc k a Ek. pose proof (crtc_PC _ _ _ _ _ Hr PC) as PC'.
    destruct (crtc_fate (λ o a, o = Some r ∧ sk_client a = c) s s' k a) as [[E1 L1]|(r' & Ec & [[= ->] Hcl] & E1 & L1)]; [by intros ? [? _]|done|done| |].
    - assert (bool_decide (sk_client a = c) && sk_connected a = false) as ->.
      { case_bool_decide; [|done]. by apply (Hc k a). }
      split_and!; [done|done|by eapply crtc_rooms|]. intros Hcon. by apply (pc_c _ PC' k a).
    - rewrite bool_decide_eq_true_2, Ec by done. cbn. split; [|done]. by eexists.
  Qed.
  Lemma empty_csocks x c : invC x → csocks_of x c = ∅ → ∀ k a, c_socks x !! k = Some a → sk_client a = c → sk_connected a = false.
  Proof.
    intros N E k a Ek Ec. destruct (sk_connected a) eqn:Hc; [|done]. destruct (N k a Ek Hc) as (_ & N2 & _). rewrite Ec, E in N2. done.
  Qed.
  Lemma back_closed Q s s' c : rtc (cprim Q) s s' → (∀ k a, c_socks s.1 !! k = Some a → sk_client a = c → sk_connected a = false) →
    ∀ k a, c_socks s'.1 !! k = Some a → sk_client a = c → sk_connected a = false.
  Proof.
    intros Hr H k a Ek Ec. destruct (crtc_back _ _ _ _ _ Hr Ek) as (a0 & E0 & Ec0 & H0). destruct (sk_connected a) eqn:Hc; [|done].
    pose proof (H0 eq_refl) as ->. rewrite <- Hc. eapply H; [done|]. congruence.
  Qed.
  Lemma onclose_sweep os c r s : sords_ok os → is_open s.1 c = false → invPC s.1 → swept s (client_onclose csr clean os c r s) c r.
  Proof.
    intros Hos Ho PC. set (Q := λ (o : option string) a, o = Some r ∧ sk_client a = c).
    assert (∀ a, sk_client a = c → Q (Some r) a) as HQ by done.
    assert (rtc (cprim Q) s (client_onclose csr clean os c r s)) as Hr by (apply client_onclose_good; [done|done|done|apply PC]).
    apply sweep; [done|done|]. apply empty_csocks; [by eapply crtc_PC|].
    rewrite (client_onclose_eq csr clean Q) by (done || apply PC). 
    apply (range_close csr clean Q); [done|by apply onclose_closing|]. by apply invA_set_client, PC.
  Qed.
  Lemma cprim_shut Q s s' c : cprim Q s s' → is_open s.1 c = false → is_open s'.1 c = false.
  Proof.
    intros P. destruct P; try done; unfold is_open; cbn.
    - rewrite alter_lookup. case_decide; [|done]. by destruct (c_clients s.1 !! c).
    - rewrite alter_lookup. case_decide; [|done]. by destruct (c_clients s.1 !! c).
    - intros Ho. destruct (c_clients (onclose csr clean os reason k s).1 !! c) as [cl|] eqn:E; [|done].
      destruct (onclose_clients _ _ _ _ _ _ _ _ E) as (cl0 & E0 & _ & _ & -> & _). by rewrite E0 in Ho.
  Qed.
  Lemma crtc_shut Q s s' c : rtc (cprim Q) s s' → is_open s.1 c = false → is_open s'.1 c = false.
  Proof. induction 1; [done|]. eauto using cprim_shut. Qed.
  Lemma swept_frame s s1 s' c r : c_socks s1.1 = c_socks s.1 → c_nsps s1.1 = c_nsps s.1 → (∀ k, lives k s1.2 = lives k s.2) → swept s1 s' c r → swept s s' c r.
  Proof.
    intros E1 E2 E3 H k a Ek. specialize (H k a). rewrite E1 in H. specialize (H Ek). rewrite E3 in H. destruct (bool_decide _ && _); [done|].
    destruct H as (H1 & H2 & H3 & H4). split_and!; try done. intros Hj. rewrite H3 by done. unfold rooms_sock, reg_of. by rewrite E1, E2.
  Qed.
  Lemma transport_sweep os c r s : sords_ok os → invPC s.1 →
    let s' := sstep (os, OTransport c r) s in swept s s' c r ∧ is_open s'.1 c = false.
  Proof.
    intros Hos PC. cbn [step fst snd]. set (s1 := upd_client c cl_shut s).
    assert (cprim (λ o a, o = Some r ∧ sk_client a = c) s s1) as P by apply pr_shut.
    pose proof (cprim_PC _ _ _ _ _ P PC) as PC1. split.
    - apply (swept_frame s s1); [done..|]. apply onclose_sweep; [done|apply shut_closed|done].
    - apply (crtc_shut (λ o a, o = Some r ∧ sk_client a = c) s1); [|apply shut_closed]. apply client_onclose_good; [done|done|apply shut_closed|apply PC1].
  Qed.
  Lemma close_sweep os c s : sords_ok os → invPC s.1 → is_open s.1 c = true →
    swept s (client_close csr clean os c s) c "forced server close" ∧ is_open (client_close csr clean os c s).1 c = false.
  Proof.
    intros Hos PC Ho. set (Q := λ (o : option string) a, o = Some "forced server close" ∧ sk_client a = c). unfold client_close. rewrite Ho.
    assert (rtc (cprim Q) s (hangup c s)) as P by (apply hangup_good; apply PC).
    pose proof (crtc_PC _ _ _ _ _ P PC) as PC1. split.
    - apply (swept_frame s (hangup c s)); [done..|intros k; cbn [hangup upd_client log on_core snd]; rewrite lives_app; cbn; by rewrite app_nil_r|]. apply onclose_sweep; [done|apply shut_closed|done].
    - apply (crtc_shut Q (hangup c s)); [|apply shut_closed]. apply client_onclose_good; [done|done|apply shut_closed|apply PC1].
  Qed.
  Lemma disconnect_sweep os k a s : sords_ok os → invPC s.1 → c_socks s.1 !! k = Some a → sk_connected a = true →
    let s' := sstep (os, ODisconnect k true) s in swept s s' (sk_client a) "server namespace disconnect" ∧ is_open s'.1 (sk_client a) = false.
  Proof.
    intros Hos PC Ek Ec. cbn [step fst snd]. unfold disconnect_st. rewrite Ek, Ec. set (c := sk_client a).
    set (Q := λ (o : option string) a, o = Some "server namespace disconnect" ∧ sk_client a = c).
    assert (∀ a, sk_client a = c → Q (Some "server namespace disconnect") a) as HQ by done.
    pose proof (pc_a _ PC) as A.
    assert (rtc (cprim Q) s (client_disconnect csr clean os c s)) as Hr by (by apply client_disconnect_good).
    rewrite (client_disconnect_eq csr clean Q) in * by done.
    destruct (range_close csr clean Q (disconnect csr clean os) os c s) as [H He]; [done|by apply disconnect_closing|done|].
    set (s1 := range_client os c (disconnect csr clean os) s) in *.
    pose proof (crtc_PC _ _ _ _ _ H PC) as PC1.
    assert (rtc (cprim Q) s1 (client_close csr clean os c s1)) as H1 by (by apply client_close_empty). split.
    - apply sweep; [done|done|]. eapply back_closed; [done|]. by apply empty_csocks; [apply PC1|].
    - destruct (is_open s1.1 c) eqn:Eo; [by apply close_sweep|]. by eapply crtc_shut.
  Qed.
  Lemma c23_transport_l h os c r : envok (h ++ [(os, OTransport c r)]) → nice h →
    let s := srun h in let s' := srun (h ++ [(os, OTransport c r)]) in swept s s' c r ∧ is_open s'.1 c = false.
  Proof. intros [He [Hos _]]%env_snoc Hn. cbv zeta. rewrite run_snoc. apply transport_sweep; [done|by apply run_PC]. Qed.
  Lemma c23_disconnect_l h os k a : envok (h ++ [(os, ODisconnect k true)]) → nice h → c_socks (srun h).1 !! k = Some a → sk_connected a = true →
    let s := srun h in let s' := srun (h ++ [(os, ODisconnect k true)]) in
    swept s s' (sk_client a) "server namespace disconnect" ∧ is_open s'.1 (sk_client a) = false.
  Proof. intros [He [Hos _]]%env_snoc Hn Ek Ec. cbv zeta. rewrite run_snoc. apply disconnect_sweep; [done|by apply run_PC|done..]. Qed.

  (** ** C25 *)
  Lemma sent_more h e k p : sent csr skip clean h k p → sent csr skip clean (h ++ [e]) k p.
  Proof. intros (h1 & os & c & ans & x & h2 & -> & H). exists h1, os, c, ans, x, (h2 ++ [e]). split; [by rewrite <- app_assoc|done]. Qed.
  Lemma prim_tasks Q C D s s' k p : prim csr clean Q C D s s' → (k, p) ∈ c_tasks s'.1 → (k, p) ∈ c_tasks s.1 ∨ D (BTask k p).
  Proof.
    intros P. destruct P; cbn; try (by left).
    - destruct H; cbn; try (by left).
      + intros [j Hj]%elem_of_list_lookup. left. apply elem_of_list_lookup. 
        destruct (decide (j < i)); [rewrite lookup_delete_lt in Hj by done|rewrite lookup_delete_ge in Hj by lia]; eauto.
      + rewrite onclose_tasks. by left.
    - intros [?|?%elem_of_list_singleton]%elem_of_app; [by left|]. right. by simplify_eq.
    - unfold join. destruct (c_socks s.1 !! k0) as [b|]; [|by left]. destruct (sk_can_join b); by left.
    - unfold leave. destruct (c_socks s.1 !! k0) as [b|]; by left.
    - rewrite (do_connect_eq _ a) by done. by left.
    - rewrite cleanup_tasks. by left.
    - unfold create_child. rewrite H1. by left.
  Qed.
  Lemma rtc_tasks Q C D s s' k p : rtc (prim csr clean Q C D) s s' → (k, p) ∈ c_tasks s'.1 → (k, p) ∈ c_tasks s.1 ∨ D (BTask k p).
  Proof. induction 1 as [|s y s' P _ IH]; [by left|]. intros [H|H]%IH; [|by right]. by eapply prim_tasks. Qed.
  Lemma quiet_steps Q C D s s' : rtc (prim csr clean Q C D) s s' → (∀ a, ¬ Q None a) →
    ∀ l x e k p, s'.2 = s.2 ++ l → (x, e) ∈ l → ¬ processes e k p.
  Proof.
    intros Hr HQ. induction Hr as [s|s y s' P Hr IH]; intros l x e k p E Hin.
    { rewrite <- (app_nil_r s.2) in E at 1. apply app_inv_head in E as <-. by apply elem_of_nil in Hin. }
    destruct (prim_added _ _ _ _ _ _ _ P) as (l0 & El & Hl). destruct (log_grow _ _ _ _ _ Hr) as [l' El'].
    specialize (IH l' x e k p El'). rewrite El', El, <- app_assoc in E. apply app_inv_head in E as <-.
    apply elem_of_app in Hin as [H|H]; [|by apply IH].
    destruct Hl as [|e0 He|j a q Hq E1 E2 Es|j a fns E1 E2 E3 Ho Es ->|os reason j a Hq Hos E1 E2 Es].
    - by apply elem_of_nil in H.
    - apply elem_of_list_singleton in H as [= -> ->]. destruct e0; try (by intros []); destruct H0 as [a Ha]; try done; by apply HQ in Ha.
    - by apply HQ in Hq.
    - repeat (apply elem_of_cons in H as [H|H]; [injection H as -> ->; by intros []|]). by apply elem_of_nil in H.
    - apply elem_of_app in H as [H|H].
      + unfold close_logs in H. destruct (csr && _); repeat (apply elem_of_cons in H as [H|H]; [injection H as -> ->; by intros []|]); by apply elem_of_nil in H.
      + apply elem_of_list_singleton in H as [= -> ->]. by intros [].
  Qed.
  Lemma task_log os i s x e k p : (x, e) ∈ (sstep (os, OTask i) s).2 → processes e k p → (x, e) ∈ s.2 ∨ (k, p) ∈ c_tasks s.1.
  Proof.
    cbn [step fst snd]. destruct (c_tasks s.1 !! i) as [[j q]|] eqn:E; [|by left]. intros Hin Hp.
    assert ((x, e) ∈ s.2 ∨ (j = k ∧ q = p)) as [H|[-> ->]]; [|by left|right; by eapply elem_of_list_lookup_2].
    revert Hin. unfold onpacket. set (s1 := on_core _ s). assert (s1.2 = s.2) as E1 by done.
    assert (∀ e0 y, (x, e) ∈ s1.2 ++ [(y, e0)] → (∀ k p, processes e0 k p → j = k ∧ q = p) → (x, e) ∈ s.2 ∨ j = k ∧ q = p) as H1.
    { intros e0 y [H|H]%elem_of_app HH; [left; by rewrite <- E1|]. apply elem_of_list_singleton in H as [= -> ->]. right. by apply HH. }
    assert (∀ e0 y e1 y1, (x, e) ∈ (s1.2 ++ [(y, e0)]) ++ [(y1, e1)] → (∀ k p, processes e0 k p → j = k ∧ q = p) → (∀ k p, processes e1 k p → j = k ∧ q = p) → (x, e) ∈ s.2 ∨ j = k ∧ q = p) as H2.
    { intros e0 y e1 y1 [H|H]%elem_of_app HH HH1; [by eapply H1|]. apply elem_of_list_singleton in H as [= -> ->]. right. by apply HH1. }
    destruct (p_type q).
    - intros H. left. by rewrite <- E1.
    - destruct (c_socks s1.1 !! j) as [a|] eqn:Ej; [|unfold onclose; rewrite Ej; by left].
      destruct (sk_connected a) eqn:Ec; [|unfold onclose; rewrite Ej, Ec; by left].
      rewrite (onclose_log csr clean _ _ _ a) by done. intros [H|[H|H]%elem_of_app]%elem_of_app; [by left|..].
      + unfold close_logs in H. destruct (csr && _); repeat (apply elem_of_cons in H as [H|H]; [by injection H as -> ->|]); by apply elem_of_nil in H.
      + by apply elem_of_list_singleton in H as [= -> ->].
    - change (c_socks (log (EAny j q) s1).1) with (c_socks s1.1). destruct (c_socks s1.1 !! j) as [a|]; [destruct (sk_connected a)|]; intros H;
        [eapply H2; [exact H|by intros..]|eapply H1; [exact H|by intros]..].
    - intros H. eapply H1; [exact H|]. by intros.
    - intros H. left. by rewrite <- E1.
    - change (c_socks (log (EAny j q) s1).1) with (c_socks s1.1). destruct (c_socks s1.1 !! j) as [a|]; [destruct (sk_connected a)|]; intros H;
        [eapply H2; [exact H|by intros..]|eapply H1; [exact H|by intros]..].
    - intros H. eapply H1; [exact H|]. by intros.
  Qed.
  Definition routed (h : list (sords * op)) : Prop :=
    (∀ k p, (k, p) ∈ c_tasks (srun h).1 → sent csr skip clean h k p) ∧
    (∀ x e k p, (x, e) ∈ (srun h).2 → processes e k p → sent csr skip clean h k p).
  Lemma rtc_ids h1 h2 : envok (h1 ++ h2) → ids_ok (srun (h1 ++ h2)).1 → ids_ok (srun h1).1.
  Proof.
    intros He. pose proof (run_rtc _ _ _ _ _ He) as Hr. apply env_app in He. destruct (run_B _ _ _ _ He) as [A _]. revert A.
    induction Hr as [|s y s' P _ IH]; [done|]. intros A Hi. eapply prim_ids; [done|done|]. apply IH; [|done]. by eapply invA_prim.
  Qed.
  Lemma run_routed h : envok h → ids_ok (srun h).1 → routed h.
  Proof.
    induction h as [|e h IH] using rev_ind; intros He Hi; [split; intros; by (apply elem_of_nil in H)|].
    pose proof (rtc_ids _ _ He Hi) as Hi0. apply env_snoc in He as [He Ho]. destruct (IH He Hi0) as [IH1 IH2].
    destruct (run_B _ _ _ _ He) as [A _]. pose proof (run_N _ _ _ _ He Hi0) as N.
    assert (∀ b, births (srun h) e b → match b with BTask k p => sent csr skip clean (h ++ [e]) k p | _ => True end) as Hb.
    { intros [m|k p]; [done|]. intros (c & ans & x & Ee & Hop & Hk). destruct e as [os o]. cbn in Ee. subst o.
      exists h, os, c, ans, x, []. split_and!; [done|done|]. by apply N. }
    set (isT := ∃ i, e.2 = OTask i).
    assert (rtc (prim csr clean (λ o a, o = None → isT) (λ _ _, True) (λ b, match b with BTask k p => sent csr skip clean (h ++ [e]) k p | _ => True end)) (srun h) (sstep e (srun h))) as Hr.
    { destruct (closing_step (srun h) e) eqn:Ecl.
      - apply rtc_c, step_cprims; try done. apply Ho.
      - by apply step_oprims. }
    split.
    - intros k p. rewrite run_snoc. intros [H|H]%(rtc_tasks _ _ _ _ _ _ _ Hr); [by apply sent_more, IH1|done].
    - intros x f k p Hin Hp. rewrite run_snoc in Hin. destruct e as [os o].
      assert (isT ∨ ¬ isT) as [[i Hi']|HnT].
      { unfold isT. cbn. destruct o; first [by (left; eexists)|right; by intros [? ?]]. }
      + cbn in Hi'. subst o. apply (task_log _ _ _ _ _ k p) in Hin as [Hin|Hin]; [apply sent_more; by eapply IH2|by apply sent_more, IH1|done].
      + destruct (log_grow _ _ _ _ _ Hr) as [l El]. rewrite El in Hin. apply elem_of_app in Hin as [Hin|Hin]; [apply sent_more; by eapply IH2|].
        exfalso. eapply (quiet_steps _ _ _ _ _ Hr); [|done..]. intros a Ha. by apply HnT, Ha.
  Qed.
  Lemma joined_table x c m : invA x → invPC x → invN x → (is_Some (cnsps_of x c !! m) ↔ ∃ k, joined x c m k).
  Proof.
    intros A PC N. split.
    - intros [k Hk]. apply N in Hk as [Hk _]. eauto.
    - intros (k & a & Ek & Ec & <- & <-). apply (pc_c _ PC) in Ek as (_ & _ & Hk); [|done]. eauto.
  Qed.
  Lemma range_tasks os c f s : (∀ k s, c_tasks (f k s).1 = c_tasks s.1) → c_tasks (range_client os c f s).1 = c_tasks s.1.
  Proof.
    intros Hf. unfold range_client. generalize (so_client os c (dom (csocks_of s.1 c))). intros l. revert s.
    induction l as [|i l IH]; intros s; [done|]. cbn. rewrite IH. destruct (csocks_of s.1 c !! i); [apply Hf|done].
  Qed.
  Lemma c25_violation_l h os c p ans x : envok (h ++ [(os, OPacket c p ans x)]) → nice h → is_open (srun h).1 c = true → violation (srun h).1 c p →
    let s := srun h in let s' := srun (h ++ [(os, OPacket c p ans x)]) in
    swept s s' c "forced server close" ∧ is_open s'.1 c = false ∧ c_tasks s'.1 = c_tasks s.1.
  Proof.
    intros [He [Hos _]]%env_snoc Hn Hop Hv. cbv zeta. rewrite run_snoc. cbn [step fst snd]. rewrite Hop.
    pose proof (run_PC _ _ _ _ He Hn) as PC. pose proof (run_N _ _ _ _ He (pc_i _ PC)) as N.
    assert (bad_packet (srun h) c p = true) as Hb.
    { unfold bad_packet. pose proof (joined_table _ c (p_nsp p) (pc_a _ PC) PC N) as [J1 J2].
      destruct (cnsps_of (srun h).1 c !! p_nsp p) as [k|]; apply bool_decide_eq_true; destruct Hv as [[H1 H2]|[H1 H2]]; try done.
      - exfalso. apply H1, J1. eauto.
      - exfalso. destruct (J2 H1) as [? ?]. done. }
    rewrite ondecoded_bad by done. destruct (close_sweep os c (srun h)) as [H1 H2]; [done..|]. split_and!; [done|done|].
    unfold client_close. rewrite Hop. unfold client_onclose. cbn [upd_client on_core fst set_clients c_tasks].
    rewrite range_tasks; [done|]. intros. apply onclose_tasks.
  Qed.
  (** ** C26 *)
  Lemma c26_one_l h c m j k : envok h → nice h → joined (srun h).1 c m j → joined (srun h).1 c m k → j = k.
  Proof.
    intros He Hn (a & Ej & Ca & Cla & Na) (b & Ek & Cb & Clb & Nb). pose proof (run_PC _ _ _ _ He Hn) as PC.
    destruct (decide (j = k)) as [|Hne]; [done|]. exfalso.
    destruct (pc_p _ PC j k a b Hne Ej Ek) as [_ H]; [by eapply (ia_live _ (pc_a _ PC))..|]. apply H. split; congruence.
  Qed.
End claims.
