(** What a closed connection leaves behind (C71). *)
From Verif Require Import Base GoTypes Rooms RoomsSpec RoomsProofs Adapter Session System SystemSpec GoneSpec SystemProofs SystemLife SystemPolite SystemClaims.

Section gone.
  Context (csr skip clean : bool).
  Notation sstep := (step csr skip clean).
  Notation srun := (run csr skip clean).
  Notation envok := (env_ok csr skip clean).
  Notation nice := (polite csr skip clean).
  Notation anyprim := (prim csr clean (λ _ _, True) (λ _ _, True) (λ _, True)).
  Notation cprim := (cprim csr clean).

  (** The connection of [c] is closed, its timer stopped and none of its sockets connected. *)
  Definition idle (c : nat) (s : sys) : Prop :=
    (∃ cl, c_clients s.1 !! c = Some cl ∧ cl_open cl = false ∧ cl_timer cl = false) ∧
    ∀ k a, c_socks s.1 !! k = Some a → sk_client a = c → sk_connected a = false.

  Lemma client_remove_timer k s c cl : c_clients (client_remove k s).1 !! c = Some cl →
    ∃ cl0, c_clients s.1 !! c = Some cl0 ∧ cl_open cl = cl_open cl0 ∧ cl_timer cl = cl_timer cl0.
  Proof.
    unfold client_remove. destruct (c_socks s.1 !! k) as [a|]; [|eauto]. destruct (csocks_of s.1 (sk_client a) !! sk_id a); [|eauto].
    cbn. rewrite alter_lookup. case_decide; [|eauto]. intros (cl0 & E & ->)%fmap_Some. eauto.
  Qed.
  Lemma onclose_timer os r k s c cl : c_clients (onclose csr clean os r k s).1 !! c = Some cl →
    ∃ cl0, c_clients s.1 !! c = Some cl0 ∧ cl_open cl = cl_open cl0 ∧ cl_timer cl = cl_timer cl0.
  Proof.
    unfold onclose. destruct (c_socks s.1 !! k) as [a|]; [|eauto]. destruct (sk_connected a); [|eauto].
    cbn. intros H. apply client_remove_timer in H as (cl0 & H0 & H1 & H2). rewrite cleanup_clients in H0.
    destruct (csr && _); eauto.
  Qed.
  Lemma cprim_client Q s s' c cl : cprim Q s s' → c_clients s.1 !! c = Some cl → cl_open cl = false → cl_timer cl = false →
    ∃ cl', c_clients s'.1 !! c = Some cl' ∧ cl_open cl' = false ∧ cl_timer cl' = false.
  Proof.
    intros P E Ho Ht. destruct P; try (by eauto).
    - cbn. rewrite alter_lookup. case_decide; [|eauto]. subst. rewrite E. cbn. eauto.
    - cbn. rewrite alter_lookup. case_decide; [|eauto]. subst. rewrite E. cbn. eauto.
    - assert (is_Some (c_clients (onclose csr clean os reason k s).1 !! c)) as [cl' E'].
      { apply lookup_lt_is_Some. rewrite onclose_clients_length. by eapply lookup_lt_Some. }
      destruct (onclose_timer _ _ _ _ _ _ E') as (cl0 & E0 & H3 & H4). rewrite E in E0. injection E0 as <-. exists cl'. split_and!; congruence.
  Qed.
  Lemma idle_prim c s s' : anyprim s s' → idle c s → idle c s'.
  Proof.
    intros P [(cl & E & Ho & Ht) Hi]. destruct P; try (by split; [eauto|]).
    - split; [by eapply cprim_client|]. eapply back_closed; [by apply rtc_once|done].
    - split; [|done]. exists cl. split; [|done]. cbn. by apply lookup_app_l_Some.
    - unfold join. destruct (c_socks s.1 !! k) as [b|]; [|by split; eauto]. destruct (sk_can_join b); by split; eauto.
    - unfold leave. destruct (c_socks s.1 !! k) as [b|]; by split; eauto.
    - split; [eauto|]. intros k b [Hk|[_ Hk]]%lookup_app_Some; [eauto|]. by apply list_lookup_singleton_Some in Hk as [_ <-].
    - assert (sk_client a ≠ c) as Hc by (intros <-; unfold is_open in H2; rewrite E in H2; cbn in H2; congruence).
      rewrite (do_connect_eq _ a) by done. split.
      + exists cl. cbn. rewrite alter_lookup. rewrite decide_False; done.
      + intros j b. cbn. rewrite alter_lookup. case_decide; [|eauto]. subst. rewrite H. cbn. intros [= <-]. done.
    - split; [rewrite cleanup_clients; eauto|]. intros j b. rewrite cleanup_socks, alter_lookup. case_decide; [|eauto].
      subst. rewrite H0. cbn. by intros [= <-].
    - unfold create_child. destruct (c_parents s.1 !! p); by split; eauto.
  Qed.
  Lemma idle_rtc c s s' : rtc anyprim s s' → idle c s → idle c s'.
  Proof. induction 1; eauto using idle_prim. Qed.

  Lemma transport_idle os c r s : sords_ok os → invPC s.1 → c < length (c_clients s.1) → idle c (sstep (os, OTransport c r) s).
  Proof.
    intros Hos PC Hc. destruct (transport_sweep csr skip clean os c r s Hos PC) as [Hs _]. pose proof (pc_a _ PC) as A.
    apply lookup_lt_is_Some in Hc as [cl E]. cbn [step fst snd] in *. set (Q := λ (o : option string) a, o = Some r ∧ sk_client a = c).
    assert (invA (upd_client c cl_shut s).1) as A1 by (by apply invA_set_client). split.
    - rewrite (client_onclose_eq csr clean Q) by done.
      destruct (range_close csr clean Q (onclose csr clean os r) os c (upd_client c cl_no_timer (upd_client c cl_shut s))) as [Hr _];
        [done|by apply onclose_closing|by apply invA_set_client|].
      assert (∃ cl', c_clients (upd_client c cl_no_timer (upd_client c cl_shut s)).1 !! c = Some cl' ∧ cl_open cl' = false ∧ cl_timer cl' = false) as H.
      { cbn. rewrite !list_lookup_alter, E. cbn. by eexists. }
      clear -Hr H. induction Hr as [|s1 s2 s3 P _ IH]; [done|]. apply IH. destruct H as (cl & E & Ho & Ht). by eapply cprim_client.
    - intros k a Ek Ec. destruct (sk_connected a) eqn:Hcon; [|done].
      assert (rtc (cprim Q) s (client_onclose csr clean os c r (upd_client c cl_shut s))) as Hr.
      { eapply rtc_l; [apply pr_shut|]. apply client_onclose_good; [done|done|apply shut_closed|done]. }
      destruct (crtc_back _ _ _ _ _ _ _ Hr Ek) as (a0 & E0 & Ec0 & Ha). rewrite (Ha Hcon) in E0. specialize (Hs k a E0).
      rewrite bool_decide_eq_true_2, Hcon in Hs by done. destruct Hs as [(b & Hb & Hb' & _) _]. congruence.
  Qed.
  Lemma run_rtc h1 h2 : envok (h1 ++ h2) → rtc anyprim (srun h1) (srun (h1 ++ h2)).
  Proof.
    induction h2 as [|e h2 IH] using rev_ind; intros He; [by rewrite app_nil_r|].
    rewrite app_assoc in *. apply env_snoc in He as [He Ho]. rewrite run_snoc. etrans; [by apply IH|].
    apply step_prims; try done. by destruct (run_inv csr skip clean (λ _, True)) with (h1 ++ h2).
  Qed.
  Lemma gone_idle h c : envok h → nice h → gone csr skip clean h c → idle c (srun h).
  Proof.
    intros He Hn (h1 & os & r & h2 & -> & Hc).
    change (h1 ++ (os, OTransport c r) :: h2) with (h1 ++ [(os, OTransport c r)] ++ h2) in *. rewrite app_assoc in *.
    eapply idle_rtc; [by apply run_rtc|]. apply env_app in He. apply env_snoc in He as [He [Hos _]]. rewrite run_snoc.
    apply transport_idle; [done| |done]. apply run_PC; [done|]. apply nice_app in Hn. by apply nice_snoc in Hn as [? _].
  Qed.

  Lemma c71_client_l h c : envok h → nice h → gone csr skip clean h c →
    blank_client (srun h).1 c ∧ ∀ k a, c_socks (srun h).1 !! k = Some a → sk_client a = c → sk_connected a = false.
  Proof.
    intros He Hn Hg. pose proof (run_PC _ _ _ _ He Hn) as PC. destruct (gone_idle h c He Hn Hg) as [(cl & E & Ho & Ht) Hi].
    split; [|done]. exists cl. split_and!; try done.
    - apply map_empty. intros i. destruct (cl_sockets cl !! i) as [k|] eqn:Ek; [|done]. exfalso.
      destruct (ia_csock _ (pc_a _ PC) c i k) as (a & Ha & _ & Hc & Hcon); [by unfold csocks_of; rewrite E|].
      specialize (Hi k a Ha Hc). congruence.
    - apply map_empty. intros m. destruct (cl_nsps cl !! m) as [k|] eqn:Ek; [|done]. exfalso.
      destruct (run_N csr skip clean h He (pc_i _ PC) c m k) as [(a & Ha & Hcon & Hc & _) _]; [by unfold cnsps_of; rewrite E|].
      specialize (Hi k a Ha Hc). congruence.
  Qed.
  Lemma run_A h : envok h → invA (srun h).1.
  Proof. intros He. by destruct (run_inv csr skip clean (λ _, True)) with h. Qed.
  Lemma c71_nsp_l h n : envok h → nice h → n < length (c_nsps (srun h).1) →
    (∀ k a, c_socks (srun h).1 !! k = Some a → sk_nsp a = n → gone csr skip clean h (sk_client a) ∧ ¬ pending (srun h).1 k) → blank_nsp (srun h).1 n.
  Proof.
    intros He Hn Hl Hg. pose proof (run_A _ He) as A. apply lookup_lt_is_Some in Hl as [np E].
    assert (reg_of (srun h).1 n = np_reg np) as Er by (unfold reg_of; by rewrite E).
    assert (∀ k a, c_socks (srun h).1 !! k = Some a → sk_nsp a = n → sk_connected a = false ∧ sk_can_join a = false) as Hd.
    { intros k a Hk Hkn. destruct (Hg k a Hk Hkn) as [G1 G2]. destruct (gone_idle h _ He Hn G1) as [_ Hi]. specialize (Hi k a Hk eq_refl).
      split; [done|]. destruct (sk_can_join a) eqn:Ej; [|done]. destruct G2. by exists a. }
    assert (rg_sids (np_reg np) = ∅) as Es.
    { apply map_empty. intros i. destruct (rg_sids (np_reg np) !! i) as [rs|] eqn:Ei; [|done]. exfalso.
      destruct (ia_room _ A n i) as (k & a & Hk & _ & Hkn & Hj); [rewrite Er, Ei; by eexists|].
      destruct (Hd k a Hk Hkn) as [_ ?]. congruence. }
    exists np. split_and!; try done.
    - apply map_empty. intros i. destruct (np_sockets np !! i) as [k|] eqn:Ei; [|done]. exfalso.
      destruct (ia_nsock _ A n i k) as (a & Hk & _ & Hkn & Hcon); [unfold socks_of; by rewrite E|].
      destruct (Hd k a Hk Hkn) as [? _]. congruence.
    - apply map_empty. intros r. destruct (rg_rooms (np_reg np) !! r) as [ids|] eqn:Ei; [|done]. exfalso.
      destruct (ia_reg _ A n) as [R1 R2]. rewrite Er in *. pose proof (R2 _ _ Ei) as Hne. apply set_choose_L in Hne as [i Hi].
      assert (i ∈ members_of (np_reg np) r) as Hm by (unfold members_of; by rewrite Ei). apply R1 in Hm.
      unfold rooms_of in Hm. rewrite Es, lookup_empty in Hm. by apply elem_of_empty in Hm.
  Qed.
  Lemma c71_tables_l h n np : envok h → c_nsps (srun h).1 !! n = Some np →
    (∀ i k, np_sockets np !! i = Some k → ∃ a, c_socks (srun h).1 !! k = Some a ∧ sk_id a = i ∧ sk_nsp a = n ∧ sk_connected a = true) ∧
    (∀ i rs, rg_sids (np_reg np) !! i = Some rs → ∃ k a, c_socks (srun h).1 !! k = Some a ∧ sk_id a = i ∧ sk_nsp a = n ∧ alive (srun h).1 k) ∧
    (∀ r ids, rg_rooms (np_reg np) !! r = Some ids →
       ids ≠ ∅ ∧ ∀ i, i ∈ ids → ∃ k a, c_socks (srun h).1 !! k = Some a ∧ sk_id a = i ∧ sk_nsp a = n ∧ alive (srun h).1 k).
  Proof.
    intros He E. pose proof (run_A _ He) as A. assert (reg_of (srun h).1 n = np_reg np) as Er by (unfold reg_of; by rewrite E).
    assert (∀ i rs, rg_sids (np_reg np) !! i = Some rs → ∃ k a, c_socks (srun h).1 !! k = Some a ∧ sk_id a = i ∧ sk_nsp a = n ∧ alive (srun h).1 k) as Hs.
    { intros i rs Hi. destruct (ia_room _ A n i) as (k & a & Hk & Hid & Hkn & Hj); [rewrite Er, Hi; by eexists|].
      exists k, a. split_and!; try done. exists a. auto. }
    split_and!; [|done|].
    - intros i k Hi. apply (ia_nsock _ A n i k). unfold socks_of. by rewrite E.
    - intros r ids Hr. destruct (ia_reg _ A n) as [R1 R2]. rewrite Er in *. split; [by eapply R2|]. intros i Hi.
      assert (i ∈ members_of (np_reg np) r) as Hm by (unfold members_of; by rewrite Hr). apply R1 in Hm.
      unfold rooms_of in Hm. destruct (rg_sids (np_reg np) !! i) as [rs|] eqn:Ei; [eauto|]. by apply elem_of_empty in Hm.
  Qed.
End gone.
