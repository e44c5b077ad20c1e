(** The connect timer and errors of a connection (C52, C53). *)
From Verif Require Import Base GoTypes Rooms RoomsSpec RoomsProofs Adapter Session System SystemSpec SystemProofs SystemLife SystemPolite.

Section timer.
  Context (csr skip clean : bool).
  Notation sstep := (step csr skip clean).
  Notation srun := (run csr skip clean).
  Notation envok := (env_ok csr skip clean).
  Notation anyprim := (prim csr clean (λ _ _, True) (λ _ _, True) (λ _, True)).

  Lemma came_app l1 l2 c : came (l1 ++ l2) c ↔ came l1 c ∨ came l2 c.
  Proof.
    unfold came. split.
    - intros (x & k & a & [H|H]%elem_of_app & ?); [left|right]; eauto 6.
    - intros [(x & k & a & H & ?)|(x & k & a & H & ?)]; exists x, k, a; rewrite elem_of_app; auto.
  Qed.
  Lemma came_nil c : ¬ came [] c.
  Proof. intros (x & k & a & H & _). by apply elem_of_nil in H. Qed.
  Lemma came_one x e c : (∀ k, e ≠ EConnection k) → ¬ came [(x, e)] c.
  Proof. intros He (y & k & a & H%elem_of_list_singleton & _). injection H as _ H. by eapply He. Qed.

  (** The timer is armed exactly as long as no socket was announced. *)
  Definition armed (l : list (core * eff)) (c : nat) (cl : client) : Prop :=
    (cl_timer cl = true → cl_nsps cl = ∅ ∧ cl_sockets cl = ∅ ∧ ¬ came l c) ∧ (cl_open cl = true → cl_timer cl = false → came l c).
  Definition invT (s : sys) : Prop := (∀ c cl, c_clients s.1 !! c = Some cl → armed s.2 c cl) ∧ ∀ c, came s.2 c → c < length (c_clients s.1).
  Lemma invT_ext s s' : c_clients s'.1 = c_clients s.1 → (∀ c, came s'.2 c ↔ came s.2 c) → invT s → invT s'.
  Proof.
    intros E1 E2 [H1 H2]. split.
    - intros c cl. rewrite E1. intros [H3 H4]%H1. unfold armed. by setoid_rewrite E2.
    - intros c. rewrite E2, E1. apply H2.
  Qed.
  Lemma invT_log s e : (∀ k, e ≠ EConnection k) → invT s → invT (log e s).
  Proof. intros He. apply invT_ext; [done|]. intros c. cbn. rewrite came_app. pose proof (came_one s.1 e c He). tauto. Qed.
  Lemma invT_client f c s : (∀ cl, c_clients s.1 !! c = Some cl → armed s.2 c cl → armed s.2 c (f cl)) → invT s → invT (upd_client c f s).
  Proof.
    intros Hf [H1 H2]. split; cbn.
    - intros c' cl. rewrite alter_lookup. case_decide; [subst|apply H1]. intros (cl0 & E & ->)%fmap_Some. by apply Hf, H1.
    - intros c' Hc. rewrite alter_length. by apply H2.
  Qed.
  Lemma close_logs_came r k x c : ¬ came (close_logs csr r k x) c.
  Proof.
    intros (y & j & a & H & _). unfold close_logs in H. apply elem_of_cons in H as [[=]|H]. destruct (csr && _); [|by apply elem_of_nil in H].
    by apply elem_of_list_singleton in H as [=].
  Qed.
  Lemma invT_prim s s' : anyprim s s' → invA s.1 → invT s → invT s'.
  Proof.
    intros P A HT. destruct P.
    - destruct H.
      + apply invT_log; [|done]. intros k ->. done.
      + apply invT_log; [|done]. intros k ->. done.
      + by apply invT_log.
      + apply invT_client; [|done]. intros cl E [H1 H2]. split; [exact H1|done].
      + apply invT_client; [|done]. intros cl E [H1 H2]. split; [done|]. cbn. unfold is_open in H. rewrite E in H. by rewrite H.
      + revert HT. by apply invT_ext.
      + destruct HT as [H3 H4]. assert (∀ c, came (onclose csr clean os reason k s).2 c ↔ came s.2 c) as Hc.
        { intros c. rewrite (onclose_log _ _ _ _ _ a), !came_app by done. pose proof (close_logs_came reason k s.1 c).
          assert (¬ came [((onclose csr clean os reason k s).1, EDisconnect k reason)] c) by by apply came_one. tauto. }
        split; [|intros c; rewrite Hc, onclose_clients_length; apply H4].
        intros c cl E. unfold armed. rewrite Hc. assert (cl_sockets cl = csocks_of (onclose csr clean os reason k s).1 c) as Es by (unfold csocks_of; by rewrite E).
        rewrite (onclose_csocks _ _ _ _ _ a) in Es by done. destruct (onclose_clients _ _ _ _ _ _ _ _ E) as (cl0 & E0 & _ & _ & -> & -> & Hn).
        destruct (H3 c cl0 E0) as [H5 H6]. unfold csocks_of in Es. rewrite E0 in Es. split; [|done]. intros (H7 & H8 & H9)%H5. rewrite H8 in Es. split_and!; [| |done].
        * apply map_empty. intros m. destruct (cl_nsps cl !! m) as [j|] eqn:Em; [|done]. apply Hn in Em. by rewrite H7 in Em.
        * rewrite Es. case_decide; [apply delete_empty|done].
    - destruct HT as [H1 H2]. split.
      + intros c cl. cbn. rewrite lookup_app. destruct (c_clients s.1 !! c) as [cl'|] eqn:E; [intros [= <-]; by apply H1|].
        intros Hl. apply list_lookup_singleton_Some in Hl as [Hl <-]. split; [|done]. intros _. split_and!; try done. intros Hc. apply H2 in Hc.
        apply lookup_ge_None in E. lia.
      + intros c Hc%H2. cbn. rewrite app_length. lia.
    - revert HT. by apply invT_ext.
    - revert HT. apply invT_ext; [|by rewrite join_log]. unfold join. destruct (c_socks s.1 !! k) as [b|]; [|done]. by destruct (sk_can_join b).
    - revert HT. apply invT_ext; [|by rewrite leave_log]. unfold leave. by destruct (c_socks s.1 !! k).
    - revert HT. by apply invT_ext.
    - rewrite (do_connect_eq _ a) by done. set (l := [_; _; _]). destruct HT as [H3 H4].
      assert (c_socks (conn2 a k s.1) !! k = Some (sk_set true true a)) as Ek by (cbn; rewrite list_lookup_alter, H; done).
      assert (∀ c, came (s.2 ++ l) c ↔ came s.2 c ∨ c = sk_client a) as Hc.
      { intros c. rewrite came_app. split; (intros [?|Hc]; [by left|right]).
        - destruct Hc as (x & j & b & [[=]|[[=]|[= -> ->]%elem_of_list_singleton]%elem_of_cons]%elem_of_cons & E & <-).
          rewrite Ek in E. by injection E as <-.
        - subst c. exists (conn2 a k s.1), k, (sk_set true true a). split; [|done]. unfold l. set_solver. }
      split.
      + intros c cl. unfold armed. cbn [fst snd]. rewrite Hc. cbn. rewrite alter_lookup. case_decide as Hd; [|intros [H5 H6]%H3; tauto].
        intros (cl0 & E & ->)%fmap_Some. cbn. split; [done|by right].
      + intros c. cbn [fst snd]. rewrite Hc. cbn. rewrite alter_length. intros [?| ->]; [auto|]. by apply (ia_wf _ A k a).
    - revert HT. apply invT_ext; [apply cleanup_clients|by rewrite cleanup_log].
    - apply invT_log; [done|]. revert HT. by apply invT_ext.
    - unfold create_child. rewrite H1. apply invT_log; [done|]. revert HT. by apply invT_ext.
    - revert HT. by apply invT_ext.
    - revert HT. by apply invT_ext.
    - revert HT. by apply invT_ext.
    - revert HT. by apply invT_ext.
    - revert HT. by apply invT_ext.
  Qed.
  Lemma run_T h : envok h → invT (srun h).
  Proof. apply (run_inv csr skip clean invT); [|apply invT_prim]. split; [done|]. intros c H. by apply came_nil in H. Qed.

  (** ** C52 *)
  Lemma close_nothing os c s : sords_ok os → csocks_of s.1 c = ∅ → is_open s.1 c = true → ∃ s', client_close csr clean os c s = s' ∧
    s'.2 = s.2 ++ [(s.1, EHangup c)] ∧ s'.1 = set_clients (alter (λ cl, cl_no_timer (cl_shut cl)) c (c_clients s.1)) s.1.
  Proof.
    intros Hos He Ho. eexists. split; [done|]. unfold client_close, client_onclose. rewrite Ho. cbv zeta.
    set (t := upd_client c cl_no_timer (hangup c s)). assert (csocks_of t.1 c = ∅) as Et.
    { unfold t, hangup, upd_client, on_core, csocks_of in *. cbn. rewrite !list_lookup_alter. by destruct (c_clients s.1 !! c). }
    assert (range_client os c (onclose csr clean os "forced server close") t = t) as ->.
    { unfold range_client. rewrite Et, dom_empty_L. destruct Hos as (_ & Hos & _). pose proof (Hos c ∅) as Hp. rewrite elements_empty in Hp. by rewrite (proj1 (Permutation_nil_r _) Hp). }
    rewrite clear_empty by done. split; [done|]. unfold t. cbn. rewrite <- list_alter_compose. done.
  Qed.
  (** A connected socket was announced. *)
  Definition told (s : sys) : Prop := ∀ k a, c_socks s.1 !! k = Some a → sk_connected a = true → came s.2 (sk_client a).
  Lemma told_ext s s' : (∀ k a, c_socks s'.1 !! k = Some a → sk_connected a = true → ∃ b, c_socks s.1 !! k = Some b ∧ sk_connected b = true ∧ sk_client b = sk_client a) →
    (∃ l, s'.2 = s.2 ++ l) → told s → told s'.
  Proof. intros H1 [l E] H k a Hk Hc. rewrite E. destruct (H1 k a Hk Hc) as (b & Hb & Hbc & <-). apply came_app. left. by eapply H. Qed.
  Lemma told_prim s s' : anyprim s s' → invA s.1 → told s → told s'.
  Proof.
    intros P A HT. pose proof (prim_added _ _ _ _ _ _ _ P) as (l & El & _).
    destruct P.
    - destruct H; try (revert HT; apply told_ext; [by eauto|by eauto]). revert HT. apply told_ext; [|by eauto].
      intros j b. rewrite (onclose_socks _ _ _ _ _ a), alter_lookup by done. case_decide; [|by eauto]. by intros (b0 & _ & ->)%fmap_Some.
    - revert HT; apply told_ext; by eauto.
    - revert HT; apply told_ext; by eauto.
    - revert HT; apply told_ext; [|by eauto]. rewrite join_socks. by eauto.
    - revert HT; apply told_ext; [|by eauto]. rewrite leave_socks. by eauto.
    - revert HT; apply told_ext; [|by eauto]. intros k b. cbn. rewrite lookup_app. destruct (c_socks s.1 !! k) eqn:E; [intros [= <-]; by eauto|].
      intros Hl. apply list_lookup_singleton_Some in Hl as [_ <-]. congruence.
    - rewrite (do_connect_eq _ a) by done. intros j b. cbn [fst snd]. rewrite came_app. cbn. rewrite alter_lookup. case_decide.
      + subst. intros (b0 & E & ->)%fmap_Some _. rewrite H in E. injection E as <-. right. exists (conn2 a k s.1), k, (sk_set true true a).
        split; [set_solver|]. cbn. by rewrite list_lookup_alter, H.
      + left. by eapply HT.
    - revert HT; apply told_ext; [|by eauto]. intros j b. rewrite cleanup_socks, alter_lookup. case_decide; [|by eauto].
      intros (b0 & E & ->)%fmap_Some. cbn. by eauto.
    - revert HT; apply told_ext; by eauto.
    - revert HT; apply told_ext; [|by eauto]. rewrite create_child_socks. by eauto.
    - revert HT; apply told_ext; by eauto.
    - revert HT; apply told_ext; by eauto.
    - revert HT; apply told_ext; by eauto.
    - revert HT; apply told_ext; by eauto.
    - revert HT; apply told_ext; by eauto.
  Qed.
  Lemma run_told h : envok h → told (srun h).
  Proof. apply (run_inv csr skip clean told); [|apply told_prim]. done. Qed.
  Lemma c52_expires_l h os c : envok (h ++ [(os, OTimer c)]) → let s := srun h in let s' := srun (h ++ [(os, OTimer c)]) in
    is_open s.1 c = true → ¬ came s.2 c →
    is_open s'.1 c = false ∧ s'.2 = s.2 ++ [(s.1, EHangup c)] ∧ c_socks s'.1 = c_socks s.1 ∧ c_nsps s'.1 = c_nsps s.1 ∧
    (∀ c', c' ≠ c → c_clients s'.1 !! c' = c_clients s.1 !! c') ∧ ∀ k a, c_socks s'.1 !! k = Some a → sk_client a = c → sk_connected a = false.
  Proof.
    intros [He [Hos _]]%env_snoc. cbv zeta. intros Ho Hc. rewrite run_snoc. cbn [step fst snd].
    pose proof (run_T h He) as [HT _]. pose proof (run_told h He) as HS. revert Ho Hc HT HS. generalize (srun h) as s. intros s Ho Hc HT HS.
    unfold is_open in Ho. destruct (c_clients s.1 !! c) as [cl|] eqn:E; [|done]. destruct (HT c cl E) as [H1 H2].
    destruct (cl_timer cl) eqn:Et; [|exfalso; auto]. destruct (H1 eq_refl) as (Hn & Hs & _). rewrite bool_decide_eq_true_2 by done. cbn [andb].
    destruct (close_nothing os c s) as (s' & -> & El & Ex); [done|unfold csocks_of; by rewrite E|unfold is_open; by rewrite E|].
    rewrite Ex, El. cbn. split_and!; try done.
    - unfold is_open. cbn. by rewrite list_lookup_alter, E.
    - intros c' Hc'. by rewrite list_lookup_alter_ne.
    - intros k a Hk <-. destruct (sk_connected a) eqn:Ea; [|done]. exfalso. by eapply Hc, HS.
  Qed.
  Lemma c52_joined_l h os c : envok h → came (srun h).2 c → sstep (os, OTimer c) (srun h) = srun h.
  Proof.
    intros He Hc. pose proof (run_T h He) as [HT _]. cbn [step fst snd]. destruct (c_clients (srun h).1 !! c) as [cl|] eqn:E; [|done].
    destruct (HT c cl E) as [H1 H2]. destruct (cl_timer cl); [|done]. by destruct (H1 eq_refl) as (_ & _ & []).
  Qed.

  (** ** C53 *)
  Lemma omap_NoDup {A B} (f : A → option B) l : (∀ i j k, i ∈ l → j ∈ l → f i = Some k → f j = Some k → i = j) → NoDup l → NoDup (omap f l).
  Proof.
    intros H Hd. induction Hd as [|i l Hi Hd IH]; cbn; [constructor|].
    assert (NoDup (omap f l)) as Hl by (apply IH; intros i' j k H1 H2; apply H; by right).
    destruct (f i) as [k|] eqn:E; [|done]. constructor; [|done]. intros (j & Hj & Ej)%elem_of_list_omap. apply Hi.
    rewrite (H i j k); [done|by left|by right|done|done].
  Qed.
  Lemma range_err os c s : (λ s0 : sys, range_client os c (λ k t, log (EErr k) t) s0) s =
    (s.1, s.2 ++ ((λ k, (s.1, EErr k)) <$> omap (λ i, csocks_of s.1 c !! i) (so_client os c (dom (csocks_of s.1 c))))).
  Proof.
    unfold range_client. generalize (so_client os c (dom (csocks_of s.1 c))) as l. destruct s as [x l0]. intros l. cbn [fst snd]. revert l0.
    induction l as [|i l IH]; intros l0; cbn [foldl omap list_omap]; [by rewrite app_nil_r|]. destruct (csocks_of x c !! i) as [k|] eqn:E; cbn [fst snd]; rewrite E.
    - unfold log at 2. cbn [fst snd]. rewrite IH. cbn. by rewrite <- app_assoc.
    - apply IH.
  Qed.
  Lemma c53_error_l h os c : envok (h ++ [(os, OError c)]) → polite csr skip clean h →
    let s := srun h in let s' := srun (h ++ [(os, OError c)]) in
    ∃ ks, NoDup ks ∧ (∀ k, k ∈ ks ↔ of_client s.1 c k) ∧ s'.2 = s.2 ++ ((λ k, (s.1, EErr k)) <$> ks) ++ [(s.1, EHangup c)] ∧
      is_open s'.1 c = false ∧ c_socks s'.1 = c_socks s.1 ∧ c_nsps s'.1 = c_nsps s.1 ∧ ∀ c', c' ≠ c → c_clients s'.1 !! c' = c_clients s.1 !! c'.
  Proof.
    intros [He [Hos _]]%env_snoc Hn. cbv zeta. rewrite run_snoc. cbn [step fst snd]. pose proof (run_PC _ _ _ h He Hn) as PC.
    revert PC. generalize (srun h) as s. intros s PC. unfold client_onerror.
    pose proof (range_err os c s) as Hr. cbn beta in Hr. rewrite Hr.
    set (ks := omap _ _). exists ks. split_and!; try done.
    - assert (NoDup (so_client os c (dom (csocks_of s.1 c)))) as Hd by (rewrite (proj1 (proj2 Hos) c _); apply NoDup_elements).
      unfold ks. apply omap_NoDup; [|done].
      intros i j k _ _ (a & Ha & <- & _)%(ia_csock _ (pc_a _ PC)) (b & Hb & <- & _)%(ia_csock _ (pc_a _ PC)). congruence.
    - intros k. unfold ks. rewrite elem_of_list_omap. setoid_rewrite (proj1 (proj2 Hos) c _). setoid_rewrite elem_of_elements. split.
      + intros (i & _ & (a & Ha & _ & Hc & Hcon)%(ia_csock _ (pc_a _ PC))). by exists a.
      + intros (a & Ha & Hcon & <-). destruct (pc_c _ PC k a Ha Hcon) as (_ & H & _). exists (sk_id a). split; [|done]. by apply elem_of_dom.
    - cbn. by rewrite <- app_assoc.
    - apply shut_closed.
    - intros c' Hc'. cbn. by rewrite list_lookup_alter_ne.
  Qed.
  (** A closed connection stays closed, and what it says is ignored. *)
  Lemma prim_shut s s' c : anyprim s s' → c < length (c_clients s.1) → is_open s.1 c = false → c < length (c_clients s'.1) ∧ is_open s'.1 c = false.
  Proof.
    assert (∀ f d, (∀ cl, cl_open (f cl) = true → cl_open cl = true) → c < length (c_clients s.1) → is_open s.1 c = false →
      c < length (c_clients (upd_client d f s).1) ∧ is_open (upd_client d f s).1 c = false) as Hf.
    { intros f d Hf Hl Ho. cbn. rewrite alter_length. split; [done|]. unfold is_open in *. cbn. rewrite alter_lookup. case_decide; [|done].
      destruct (c_clients s.1 !! c) as [cl|]; [|done]. cbn. specialize (Hf cl). destruct (cl_open (f cl)); [|done]. rewrite <- Ho. symmetry. by apply Hf. }
    assert (∀ y, c_clients y = c_clients s.1 → c < length (c_clients s.1) → is_open s.1 c = false → c < length (c_clients y) ∧ is_open y c = false) as Hs.
    { intros y E Hl Ho. unfold is_open in *. by rewrite E. }
    intros P Hl Ho. destruct P.
    - destruct H; try (by apply Hs).
      + by apply Hf.
      + by apply Hf.
      + rewrite onclose_clients_length. split; [done|]. unfold is_open in *.
        destruct (c_clients (onclose csr clean os reason k s).1 !! c) as [cl|] eqn:E; [|done].
        destruct (onclose_clients _ _ _ _ _ _ _ _ E) as (cl0 & E0 & _ & _ & -> & _). by rewrite E0 in Ho.
    - cbn. rewrite app_length. split; [lia|]. unfold is_open in *. cbn. by rewrite lookup_app_l.
    - by apply Hs.
    - apply Hs; [|done..]. unfold join. destruct (c_socks s.1 !! k) as [b|]; [|done]. by destruct (sk_can_join b).
    - apply Hs; [|done..]. unfold leave. by destruct (c_socks s.1 !! k).
    - by apply Hs.
    - rewrite (do_connect_eq _ a) by done. unfold is_open in *. cbn. rewrite alter_length, alter_lookup. split; [done|]. case_decide; [|done].
      by destruct (c_clients s.1 !! c).
    - apply Hs; [|done..]. apply cleanup_clients.
    - by apply Hs.
    - apply Hs; [|done..]. unfold create_child. by destruct (c_parents s.1 !! p).
    - by apply Hs.
    - by apply Hs.
    - by apply Hs.
    - by apply Hs.
    - by apply Hs.
  Qed.
  Lemma shut_forever h1 h2 c : envok (h1 ++ h2) → c < length (c_clients (srun h1).1) → is_open (srun h1).1 c = false →
    is_open (srun (h1 ++ h2)).1 c = false.
  Proof.
    intros He Hl Ho. enough (c < length (c_clients (srun (h1 ++ h2)).1) ∧ is_open (srun (h1 ++ h2)).1 c = false) by naive_solver. revert He.
    induction h2 as [|e h2 IH] using rev_ind; intros He; [by rewrite app_nil_r|]. rewrite app_assoc in He |- *. apply env_snoc in He as [He Hop].
    destruct (IH He) as [Hl' Ho']. rewrite run_snoc. clear IH Hl Ho.
    assert (invA (srun (h1 ++ h2)).1) as A by (by apply (run_inv csr skip clean (λ _, True))).
    pose proof (step_prims_any csr skip clean e _ Hop A) as Hr. revert Hl' Ho'. generalize dependent (srun (h1 ++ h2)). intros s _ _ Hr.
    induction Hr as [|s1 s2 s3 P _ IH']; [done|]. intros Hl Ho. destruct (prim_shut _ _ _ P Hl Ho). by apply IH'.
  Qed.
  Lemma c53_after_l h1 h2 c os p ans x : envok (h1 ++ h2) → c < length (c_clients (srun h1).1) → is_open (srun h1).1 c = false →
    sstep (os, OPacket c p ans x) (srun (h1 ++ h2)) = srun (h1 ++ h2) ∧ write c p (srun (h1 ++ h2)) = srun (h1 ++ h2).
  Proof. intros He Hl Ho. pose proof (shut_forever _ _ _ He Hl Ho) as H. cbn [step fst snd]. unfold write. by rewrite !H. Qed.
End timer.
