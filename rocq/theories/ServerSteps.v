(** The steps of the server and of the reference server (C66). *)
From Verif Require Import Base GoTypes Rooms RoomsSpec RoomsProofs Adapter AdapterSpec Session System SystemSpec SystemProofs SystemLife SystemPolite SystemClaims SystemNsp ServerSpec ServerProofs.

#[local] Arguments those : simpl never.
#[local] Arguments mates : simpl never.
#[local] Arguments hung : simpl never.
#[local] Arguments ServerProofs.dcS : simpl never.
#[local] Arguments ServerSpec.depart : simpl never.
#[local] Arguments rooms_at : simpl never.
#[local] Arguments seen : simpl never.
Section steps.
  Context (csr skip clean : bool).
  Notation disconnect_st := (disconnect_st csr clean).
  Notation client_disconnect := (client_disconnect csr clean).
  Notation depart := (depart clean).
  Notation dcS := (dcS clean).
  Notation dcE := (dcE csr).
  Notation seen_client := (λ cl, UClient (cl_id cl) (cl_p3 cl) (cl_open cl) (cl_timer cl)).
  Notation seen_nsp := (λ np, UNsp (np_name np) (np_parent np) (np_on np) (np_fns np)).

  (** ** Who is meant *)
  Lemma elem_meant x n opts k : invA x → k ∈ those (meant n opts) (seen x) ↔ target x n opts k.
  Proof.
    intros A. rewrite elem_of_those. unfold target.
    assert (∀ a, c_socks x !! k = Some a → meant n opts (seen_sock x a) = true ↔ sk_connected a = true ∧ sk_nsp a = n ∧
      (opt_rooms opts = ∅ ∨ ∃ r, r ∈ opt_rooms opts ∧ r ∈ rooms_sock x k) ∧ ¬ ∃ r, r ∈ opt_except opts ∧ r ∈ rooms_sock x k) as H.
    { intros a Ek. unfold meant. rewrite here_seen. unfold rooms_sock. rewrite Ek. destruct (sk_connected a) eqn:Ec; [|cbn; naive_solver].
      cbn. rewrite (ia_live _ A k a Ek Ec). rewrite !andb_true_iff, !bool_decide_eq_true. split.
      - intros [[H1 H2] H3]. split; [done|]. split; [done|]. split.
        + destruct H2 as [?|H2]; [by left|]. right. apply set_choose_L in H2 as (r & Hr). exists r. set_solver.
        + intros (r & Hr). set_solver.
      - intros (_ & H1 & H2 & H3). split; [split; [done|]|].
        + destruct H2 as [?|(r & Hr)]; [by left|]. right. set_solver.
        + apply elem_of_equiv_empty_L. intros r Hr. apply H3. exists r. set_solver. }
    split.
    - intros (b & Eb & Hm). apply seen_lookup_Some in Eb as (a & Ek & ->). exists a. split; [done|]. by apply H.
    - intros (a & Ek & Hm). exists (seen_sock x a). split; [apply seen_lookup_Some; eauto|]. by apply H.
  Qed.
  Lemma targets_perm x n opts (ks : list nat) : invA x → NoDup ks → (∀ k, k ∈ ks ↔ target x n opts k) → ks ≡ₚ those (meant n opts) (seen x).
  Proof. intros A Hnd H. apply NoDup_Permutation; [done|apply those_NoDup|]. intros k. by rewrite H, elem_meant. Qed.

  (** ** Disconnecting connections *)
  Notation loc n cb := (local_cb (λ s : sys, reg_of s.1 n) (λ s : sys, socks_of s.1 n) cb (λ s, invPC s.1)).
  Notation agrees n := (agree (λ s : sys, reg_of s.1 n) (λ s : sys, socks_of s.1 n)).
  Lemma agrees_nsps n X (s s' : sys) : c_nsps s'.1 = c_nsps s.1 → agrees n X s s'.
  Proof. intros E. split; unfold reg_of, socks_of; by rewrite E. Qed.
  Lemma agrees_trans n X (s1 s2 s3 : sys) : agrees n X s1 s2 → agrees n X s2 s3 → agrees n X s1 s3.
  Proof. intros H1 H2. eapply agree_weaken; [|by eapply agree_trans]. by intros ? [?|?]. Qed.
  Lemma range_empty os c f s : sords_ok os → csocks_of s.1 c = ∅ → range_client os c f s = s.
  Proof.
    intros (_ & Ho & _) E. unfold range_client. rewrite E, dom_empty_L.
    assert (so_client os c ∅ = []) as ->; [|done]. apply Permutation_nil. symmetry. etrans; [apply Ho|]. by rewrite elements_empty.
  Qed.
  Lemma clear_csocks c s : csocks_of (upd_client c (λ cl, cl_set_tables ∅ (cl_nsps cl) cl) s).1 c = ∅.
  Proof. unfold csocks_of. cbn. rewrite alter_lookup, decide_True by done. by destruct (c_clients s.1 !! c). Qed.
  Lemma client_disconnect_nsps os c s : sords_ok os → c_nsps (client_disconnect os c s).1 = c_nsps (range_client os c (disconnect csr clean os) s).1.
  Proof.
    intros Hos. unfold System.client_disconnect. set (s1 := range_client _ _ _ _). set (s2 := upd_client c _ s1).
    assert (csocks_of s2.1 c = ∅) as E by apply clear_csocks. clearbody s1. unfold client_close. destruct (is_open s2.1 c); [|done].
    unfold client_onclose. cbv zeta. rewrite range_empty; [done|done|].
    clear E. unfold csocks_of. cbn. rewrite !alter_lookup. repeat case_decide; [|done..]. by destruct (c_clients s1.1 !! c).
  Qed.
  Lemma closes_agree d os r n id (ks : list nat) s : sords_ok os → invPC s.1 → NoDup ks →
    (∀ k, k ∈ ks → ∃ a, c_socks s.1 !! k = Some a ∧ sk_connected a = true ∧ (sk_nsp a = n → sk_id a = id)) →
    agrees n (λ i, i = id) s (foldl (close1 csr clean d os r) s ks).
  Proof.
    intros Hos. revert s. induction ks as [|k ks IH]; intros s PC Hnd H; [apply agree_refl|]. cbn [foldl]. apply NoDup_cons in Hnd as [Hk Hnd].
    destruct (H k) as (a & Ek & Ec & Hn); [apply elem_of_cons; by left|].
    eapply agrees_trans; [|apply IH; [by apply close1_PC|done|]].
    - set (s1 := if d then sock_packet k DISCONNECT [] s else s). assert (s1.1 = s.1) as E1 by apply close1_pre.
      eapply (agrees_trans _ _ _ s1); [apply agrees_nsps; by rewrite ?E1|]. unfold close1. fold s1. destruct (decide (sk_nsp a = n)) as [E|E].
      + rewrite <- (Hn E). apply onclose_agrees; rewrite ?E1; try done. apply PC.
      + assert (c_nsps (onclose csr clean os r k s1).1 !! n = c_nsps s1.1 !! n) as E2.
        { rewrite (onclose_nsps csr clean os r k a s1) by (by rewrite ?E1). by rewrite alter_lookup, decide_False by done. }
        split; unfold reg_of, socks_of; by rewrite E2.
    - intros j Hj. destruct (H j) as (b & Eb & Hb); [apply elem_of_cons; by right|]. exists b. split; [|done].
      rewrite (close1_socks csr clean _ _ _ _ a), list_lookup_alter_ne by (done || congruence). done.
  Qed.
  Lemma conns_loc n os : sords_ok os → loc n (disconnect_st os true).
  Proof.
    intros Hos s id k PC E. pose proof (pc_a _ PC) as A. destruct (ia_nsock _ A n id k E) as (a & Ek & <- & Hn & Hc).
    unfold System.disconnect_st. rewrite Ek, Hc. split.
    - eapply (agrees_trans _ _ _ (range_client os (sk_client a) (disconnect csr clean os) s)); [|apply agrees_nsps; by apply client_disconnect_nsps].
      destruct (range_closes csr clean true os "server namespace disconnect" (sk_client a) (disconnect csr clean os) s) as (ks & Hks & -> & Hcon); try done.
      { intros j b s' Ej Ecj. unfold disconnect. by rewrite Ej, Ecj. }
      apply closes_agree; [done|done|rewrite Hks; apply those_NoDup|].
      intros j Hj. pose proof (Hcon j Hj) as (b & Ej & Ecj). exists b. split; [done|]. split; [done|]. intros Hnb.
      rewrite Hks, elem_of_those in Hj. destruct Hj as (b' & Eb' & Hb'). apply seen_lookup_Some in Eb' as (b'' & Eb'' & ->).
      rewrite Ej in Eb''. injection Eb'' as <-. unfold of_conn in Hb'. apply andb_true_iff in Hb' as [_ Hb'%bool_decide_eq_true]. cbn in Hb'.
      destruct (decide (j = k)) as [->|Hjk]; [congruence|]. destruct (pc_p _ PC j k b a Hjk Ej Ek) as [_ []]; [by eapply (ia_live _ A)..|].
      split; [done|]. congruence.
    - destruct (sim_client_disconnect csr clean s.2 os (sk_client a) s (seen s.1, [])) as [_ ?]; [done|done| |done].
      split; [done|]. exists []. by rewrite app_nil_r.
  Qed.
  Lemma dcS_perm cs cs' v : cs ≡ₚ cs' → dcS cs v = dcS cs' v.
  Proof.
    intros E. unfold ServerProofs.dcS. assert (∀ k, k ∈ mates cs v ↔ k ∈ mates cs' v) as Hm.
    { intros k. rewrite !elem_of_mates. split; intros (a & Ea & Hh & Hin); exists a; (split; [done|]); (split; [done|]); by rewrite <- E || rewrite E. }
    rewrite (depart_ext clean _ _ v Hm). f_equal. apply list_eq. intros j. rewrite !list_lookup_imap. destruct (us_clients v !! j); [|done]. cbn. f_equal.
    assert (j ∈ hung cs v ↔ j ∈ hung cs' v) as Hh by (unfold hung; by rewrite !elem_of_list_filter, E). do 2 case_decide; tauto.
  Qed.
  Lemma dcE_perm cs cs' v : cs ≡ₚ cs' → dcE cs v ≡ₚ dcE cs' v.
  Proof.
    intros E. unfold ServerProofs.dcE. f_equiv.
    - assert (mates cs v = mates cs' v) as ->; [|done]. apply those_ext. intros k. destruct (us_socks v !! k) as [a|]; [|done]. cbn. do 2 f_equal.
      apply bool_decide_ext. by rewrite E.
    - unfold hung. by rewrite E.
  Qed.
  Lemma sim_conns L os n (ks cs : list nat) s u : sords_ok os → invPC s.1 → sim L s u → NoDup ks →
    Forall2 (λ k c, ∃ a, c_socks s.1 !! k = Some a ∧ sk_connected a = true ∧ sk_nsp a = n ∧ sk_client a = c) ks cs →
    NoDup cs ∧ sim L (foldl (λ s k, disconnect_st os true k s) s ks) (dcS cs u.1, u.2 ++ dcE cs u.1).
  Proof.
    intros Hos PC H Hnd HF. assert (NoDup cs) as Hcs.
    { clear H. induction HF as [|k c ks cs (a & Ek & Ec & Hn & Hcl) HF IH]; [constructor|]. apply NoDup_cons in Hnd as [Hk Hnd]. apply NoDup_cons. split; [|by apply IH].
      intros Hin. apply elem_of_list_lookup in Hin as (i & Hi). destruct (Forall2_lookup_r _ _ _ _ _ HF Hi) as (j & Hj & b & Ej & Ecj & Hnj & Hclj).
      destruct (decide (j = k)) as [->|Hjk]; [apply Hk; by eapply elem_of_list_lookup_2|]. pose proof (pc_a _ PC) as A.
      destruct (pc_p _ PC j k b a Hjk Ej Ek) as [_ []]; [by eapply (ia_live _ A)..|]. split; congruence. }
    split; [done|]. revert s u PC H Hnd Hcs HF. revert cs. induction ks as [|k ks IH]; intros cs s u PC H Hnd Hcs HF.
    - inversion HF; subst. cbn [foldl]. eapply sim_perm; [exact H|..]; cbn [fst snd].
      + destruct u as [v e]. cbn. unfold ServerProofs.dcS, mates.
        assert (those (λ a, here a && bool_decide (u_client a ∈ [])) v = []) as ->.
        { apply elem_of_nil_inv. intros j (a & _ & Ha)%elem_of_those. apply andb_true_iff in Ha as [_ Ha%bool_decide_eq_true]. by apply elem_of_nil in Ha. }
        rewrite depart_nil. destruct v. unfold with_clients. cbn. f_equal. apply list_eq. intros j. rewrite list_lookup_imap. by destruct (_ !! j).
      + unfold ServerProofs.dcE, mates.
        assert (those (λ a, here a && bool_decide (u_client a ∈ [])) u.1 = []) as ->.
        { apply elem_of_nil_inv. intros j (a & _ & Ha)%elem_of_those. apply andb_true_iff in Ha as [_ Ha%bool_decide_eq_true]. by apply elem_of_nil in Ha. }
        cbn. by rewrite app_nil_r.
    - apply Forall2_cons_inv_l in HF as (c & cs' & (a & Ek & Ec & Hn & Hcl) & HF & ->). apply NoDup_cons in Hnd as [Hk Hnd]. apply NoDup_cons in Hcs as [Hc Hcs].
      cbn [foldl]. unfold System.disconnect_st at 2. rewrite Ek, Ec, Hcl.
      destruct (sim_client_disconnect csr clean L os c s u Hos PC H) as [H1 PC1]. set (s1 := client_disconnect os c s) in *.
      eapply sim_perm; [apply (IH cs' s1 _ PC1 H1 Hnd Hcs)|..].
      + apply Forall2_same_length_lookup. split; [by eapply Forall2_length|]. intros i j cj Hj Hcj.
        destruct (Forall2_lookup_lr _ _ _ _ _ _ HF Hj Hcj) as (b & Ej & Ecj & Hnj & Hclj).
        assert (us_socks (seen s1.1) !! j = Some (seen_sock s.1 b)) as Es.
        { rewrite (proj1 H1). cbn [fst]. rewrite dc_lookup, <- (proj1 H), seen_lookup, Ej. cbn. rewrite decide_False; [done|].
          intros (b' & Eb' & _ & Hin%elem_of_list_singleton)%elem_of_mates. rewrite seen_lookup, Ej in Eb'. injection Eb' as <-. cbn in Hin.
          apply Hc. rewrite <- Hin, Hclj. by eapply elem_of_list_lookup_2. }
        apply seen_lookup_Some in Es as (b' & Eb' & E). exists b'. split; [done|]. pose proof (f_equal here E) as E1. rewrite !here_seen in E1.
        split; [congruence|]. split; [by rewrite <- Hnj; apply (f_equal u_nsp) in E|by rewrite <- Hclj; apply (f_equal u_client) in E].
      + cbn [fst]. by rewrite <- dcS_cons.
      + cbn [fst snd]. rewrite <- app_assoc. f_equiv. symmetry. by apply dcE_cons.
  Qed.
  Lemma apply_PC os n cb opts s : loc n cb → sords_ok os → invPC s.1 → invR s.1 →
    ∃ ks, NoDup ks ∧ apply_nsp os n cb opts s = foldl (λ s k, cb k s) s ks ∧ ks ≡ₚ those (meant n opts) (seen s.1) ∧ (∀ k, k ∈ ks ↔ target s.1 n opts k).
  Proof.
    intros Hl ((O1 & O2 & O3 & _) & _) PC R. pose proof (pc_a _ PC) as A.
    destruct (apply_fold _ _ cb _ (o_rooms (so_apply os)) (o_ids (so_apply os)) (o_sids (so_apply os)) (opts_rooms opts) (opts_except opts) s Hl O1 O2 O3 PC) as (ids & Hnd & E & Hi).
    rewrite opts_rooms_eq, opts_except_eq in Hi. exists (omap (λ i, socks_of s.1 n !! i) ids).
    assert (∀ k, k ∈ omap (λ i, socks_of s.1 n !! i) ids ↔ target s.1 n opts k) as Ht.
    { intros k. rewrite elem_of_list_omap. split.
      - intros (i & Hin & Ei). apply Hi in Hin as [Hs _]. by eapply selected_target.
      - intros Ht. destruct (target_selected _ _ _ _ A (pc_c _ PC) R Ht) as (i & Ei & Hs). exists i. split; [|done]. apply Hi. eauto. }
    pose proof (omap_socks_NoDup _ n ids A Hnd) as Hnd'. split; [done|]. split; [exact E|]. split; [|done]. by apply targets_perm.
  Qed.
  Lemma loc_PC n cb : local_cb (λ s : sys, reg_of s.1 n) (λ s : sys, socks_of s.1 n) cb (λ s, invA s.1) →
    (∀ s k a, invPC s.1 → c_socks s.1 !! k = Some a → sk_connected a = true → invPC (cb k s).1) → loc n cb.
  Proof.
    intros Hl Hp s id k PC E. destruct (Hl s id k (pc_a _ PC) E) as [H _]. split; [done|].
    destruct (ia_nsock _ (pc_a _ PC) n id k E) as (a & Ek & _ & _ & Hc). by apply (Hp s k a).
  Qed.
  Lemma sim_bulk_conns L os n opts s u : sords_ok os → invPC s.1 → invR s.1 → sim L s u →
    sim L (apply_nsp os n (disconnect_st os true) opts s)
      (u_disconnect_conns csr clean (remove_dups (omap (λ k, u_client <$> us_socks u.1 !! k) (those (meant n opts) u.1))) u).
  Proof.
    intros Hos PC R H. destruct (apply_PC os n (disconnect_st os true) opts s) as (ks & Hnd & -> & Hks & Ht); [by apply conns_loc|done..|].
    set (cs := omap (λ k, sk_client <$> c_socks s.1 !! k) ks).
    assert (Forall2 (λ k c, ∃ a, c_socks s.1 !! k = Some a ∧ sk_connected a = true ∧ sk_nsp a = n ∧ sk_client a = c) ks cs) as HF.
    { assert (∀ k, k ∈ ks → target s.1 n opts k) as Ht' by (intros; by apply Ht). clear Ht Hks Hnd. unfold cs. clear cs.
      induction ks as [|k ks IH]; [constructor|]. cbn. destruct (Ht' k) as (a & Ek & Hc & Hn & _); [apply elem_of_cons; by left|]. rewrite Ek. cbn. constructor; [eauto|].
      apply IH. intros j Hj. apply Ht', elem_of_cons. by right. }
    destruct (sim_conns L os n ks cs s u Hos PC H Hnd HF) as [Hcs Hsim].
    assert (cs ≡ₚ remove_dups (omap (λ k, u_client <$> us_socks u.1 !! k) (those (meant n opts) u.1))) as Hp.
    { assert (cs ≡ₚ omap (λ k, u_client <$> us_socks u.1 !! k) (those (meant n opts) u.1)) as Hp.
      { unfold cs. rewrite <- (proj1 H), <- Hks. erewrite list_omap_ext; [done|]. apply Forall_Forall2_diag, Forall_forall. intros k _. cbn. rewrite seen_lookup. by destruct (c_socks s.1 !! k). }
      apply NoDup_Permutation; [done|apply NoDup_remove_dups|]. intros c. by rewrite elem_of_remove_dups, Hp. }
    eapply sim_perm; [exact Hsim|..]; cbn [fst snd].
    - rewrite u_disconnect_conns_1. by apply dcS_perm.
    - rewrite u_disconnect_conns_2. f_equiv. by apply dcE_perm.
  Qed.
  Lemma sim_bulk_disconnect L os n opts s u : sords_ok os → invPC s.1 → invR s.1 → sim L s u →
    sim L (apply_nsp os n (disconnect_st os false) opts s) (u_disconnect csr clean (those (meant n opts) u.1) u).
  Proof.
    intros Hos PC R H. destruct (apply_PC os n (disconnect_st os false) opts s) as (ks & Hnd & -> & Hks & Ht); [|done..|].
    { apply loc_PC; [by apply disconnect_loc|]. intros s' k a PC' Ek Ec. unfold System.disconnect_st, disconnect. rewrite Ek, Ec. apply onclose_PC; [|done]. by rewrite sock_packet_core. }
    assert (∀ k, k ∈ ks → connected s.1 k) as Hc by (intros k (a & Ek & Ec & _)%Ht; by exists a).
    assert (∀ (l : list nat) s, foldl (λ s k, disconnect_st os false k s) s l = foldl (λ s k, disconnect csr clean os k s) s l) as ->.
    { clear. intros l. induction l as [|k l IH]; intros s; [done|]. cbn. rewrite IH. f_equal. unfold System.disconnect_st, disconnect. destruct (c_socks s.1 !! k) as [a|]; [|done]. by destruct (sk_connected a). }
    apply sim_disconnect; try done. by rewrite <- (proj1 H).
  Qed.
  Lemma sim_disconnect_one L os (st : bool) k s u : sords_ok os → invPC s.1 → sim L s u →
    sim L (disconnect_st os st k s)
      (match us_socks u.1 !! k with
       | Some a => if here a then if st then u_disconnect_conns csr clean [u_client a] u else u_disconnect csr clean [k] u else u
       | None => u
       end).
  Proof.
    intros Hos PC H. unfold System.disconnect_st. rewrite <- (proj1 H), seen_lookup. destruct (c_socks s.1 !! k) as [a|] eqn:Ek; [|done]. cbn [fmap option_fmap option_map].
    rewrite here_seen. destruct (sk_connected a) eqn:Ec; [|done]. destruct st.
    - destruct (sim_client_disconnect csr clean L os (sk_client a) s u Hos PC H) as [H1 _]. eapply sim_perm; [exact H1|..]; cbn [fst snd].
      + by rewrite u_disconnect_conns_1.
      + by rewrite u_disconnect_conns_2.
    - apply (sim_disconnect csr clean L os [k] [k]); try done; [apply NoDup_singleton|]. intros j ->%elem_of_list_singleton. by exists a.
  Qed.

  (** ** Rooms *)
  Lemma rooms_lookup K f v k : us_socks (rooms_at K f v) !! k = (λ a, if decide (k ∈ K) then settle f a else a) <$> us_socks v !! k.
  Proof. unfold rooms_at. cbn. by rewrite list_lookup_imap. Qed.
  Lemma userver_eq v w : us_socks v = us_socks w → us_clients v = us_clients w → us_nsps v = us_nsps w → us_parents v = us_parents w →
    us_names v = us_names w → us_tasks v = us_tasks w → v = w.
  Proof. destruct v, w. cbn. congruence. Qed.
  Lemma rooms_cons k K f v : k ∉ K → rooms_at (k :: K) f v = rooms_at K f (rooms_at [k] f v).
  Proof.
    intros Hk. apply userver_eq; try done. apply list_eq. intros j. rewrite !rooms_lookup. destruct (us_socks v !! j) as [a|]; [|done]. cbn. f_equal.
    destruct (decide (j = k)) as [->|Hj].
    - rewrite (decide_True (P := k ∈ k :: K)) by (apply elem_of_cons; by left). rewrite (decide_True (P := k ∈ [k])) by (by apply elem_of_list_singleton). by rewrite decide_False.
    - rewrite (decide_False (P := j ∈ [k])) by (by intros ?%elem_of_list_singleton). case_decide as H1; case_decide as H2; try done; rewrite elem_of_cons in H1; tauto.
  Qed.
  Lemma rooms_nil f v : rooms_at [] f v = v.
  Proof. apply userver_eq; try done. apply list_eq. intros j. rewrite rooms_lookup. destruct (us_socks v !! j); [|done]. cbn. by rewrite decide_False by apply not_elem_of_nil. Qed.
  Lemma rooms_ext K K' f g v : (∀ k, k ∈ K ↔ k ∈ K') → (∀ X, f X = g X) → rooms_at K f v = rooms_at K' g v.
  Proof.
    intros HK Hf. apply userver_eq; try done. apply list_eq. intros j. rewrite !rooms_lookup. destruct (us_socks v !! j) as [a|]; [|done]. cbn. f_equal.
    case_decide as H1; case_decide as H2; rewrite HK in H1; try done. unfold settle. by rewrite Hf.
  Qed.
  Lemma rooms_comp K f g v : rooms_at K g (rooms_at K f v) = rooms_at K (λ X, g (f X)) v.
  Proof. apply userver_eq; try done. apply list_eq. intros j. rewrite !rooms_lookup. destruct (us_socks v !! j) as [a|]; [|done]. cbn. f_equal. by case_decide. Qed.
  (** A change of the rooms of one socket. *)
  Definition alone (x : core) (k : nat) (a : sock) : Prop :=
    sk_nsp a < length (c_nsps x) ∧ ∀ j b, j ≠ k → c_socks x !! j = Some b → sk_can_join b = true → sk_id b ≠ sk_id a.
  Lemma PC_alone x k a : invPC x → c_socks x !! k = Some a → sk_can_join a = true → alone x k a.
  Proof.
    intros PC Ek Ej. split; [by eapply (ia_wf _ (pc_a _ PC))|]. intros j b Hj Eb Hb. by destruct (pc_p _ PC j k b a Hj Eb Ek Hb Ej) as [? _].
  Qed.
  Lemma seen_rooms F f k a (s : sys) : alone s.1 k a → c_socks s.1 !! k = Some a → sk_can_join a = true →
    (∀ g i, rooms_of (F g) i = if decide (i = sk_id a) then f (rooms_of g i) else rooms_of g i) →
    seen (upd_nsp (sk_nsp a) (λ n, np_set_reg (F (np_reg n)) n) s).1 = rooms_at [k] f (seen s.1).
  Proof.
    intros [Hlt Hu] Ek Ej HF. apply userver_eq; try done.
    - apply list_eq. intros j. rewrite rooms_lookup, !seen_lookup. cbn. destruct (c_socks s.1 !! j) as [b|] eqn:Eb; [|done]. cbn. f_equal. unfold seen_sock. cbn.
      rewrite reg_of_alter.
      assert (match c_nsps s.1 !! sk_nsp a with Some np => np_reg (np_set_reg (F (np_reg np)) np) | None => empty_registry end = F (reg_of s.1 (sk_nsp a))) as ->.
      { unfold reg_of. apply lookup_lt_is_Some in Hlt as [np ->]. done. }
      destruct (decide (j = k)) as [->|Hj].
      + rewrite (decide_True (P := k ∈ [k])) by (by apply elem_of_list_singleton). assert (a = b) as <- by congruence. rewrite Ej.
        rewrite decide_True by done. rewrite HF, decide_True by done. done.
      + rewrite (decide_False (P := j ∈ [k])) by (by intros ?%elem_of_list_singleton). destruct (sk_can_join b) eqn:Ejb; [|done]. f_equal.
        case_decide as Hn; [|done]. rewrite HF, decide_False; [by rewrite Hn|]. by apply (Hu j).
    - apply list_eq. intros j. unfold rooms_at, seen. cbn. rewrite !list_lookup_fmap, alter_lookup. case_decide; [subst|done]. by destruct (c_nsps s.1 !! sk_nsp a).
  Qed.
  Lemma old_polite e s : c_socks (step csr skip clean e s).1 = c_socks s.1 → match e.2 with OPacket _ _ _ _ => False | _ => True end → polite_op csr skip clean s e.
  Proof. intros E Ho. split; [|by destruct (e.2)]. intros a Ha. rewrite E in Ha. apply lookup_lt_Some in Ha. lia. Qed.
  Lemma join_PC os k rs s : sords_ok os → invPC s.1 → invPC (join k rs s).1.
  Proof. intros Hos PC. apply (step_PC csr skip clean (os, OJoin k rs) s); [done| |done]. apply old_polite; [apply join_socks|done]. Qed.
  Lemma leave_PC os k r s : sords_ok os → invPC s.1 → invPC (leave k r s).1.
  Proof. intros Hos PC. apply (step_PC csr skip clean (os, OLeave k r) s); [done| |done]. apply old_polite; [apply leave_socks|done]. Qed.
  Lemma seen_join k a rs s : alone s.1 k a → c_socks s.1 !! k = Some a → sk_can_join a = true → seen (join k rs s).1 = rooms_at [k] (λ X, X ∪ list_to_set rs) (seen s.1).
  Proof.
    intros PC Ek Ej. unfold join. rewrite Ek, Ej. apply (seen_rooms (λ g, (add_all (sk_id a) (remove_dups rs) g).1)); [done..|].
    intros g i. apply set_eq. intros r. rewrite add_all_rooms_of, elem_of_remove_dups. case_decide; [rewrite elem_of_union, elem_of_list_to_set|]; naive_solver.
  Qed.
  Lemma seen_leave k a r s : alone s.1 k a → c_socks s.1 !! k = Some a → sk_can_join a = true → seen (leave k r s).1 = rooms_at [k] (λ X, X ∖ {[r]}) (seen s.1).
  Proof.
    intros PC Ek Ej. unfold leave. rewrite Ek. apply (seen_rooms (λ g, (del true (sk_id a) r g).1)); [done..|].
    intros g i. apply set_eq. intros r'. rewrite del_rooms_of. case_decide; [rewrite elem_of_difference, elem_of_singleton|]; naive_solver.
  Qed.
  Lemma sim_to L s u s' g : sim L s u → s'.2 = s.2 → seen s'.1 = g (seen s.1) → sim L s' (on_u g u).
  Proof. intros (H & l & E & Hp) E2 E1. split; [cbn; by rewrite E1, H|]. exists l. by rewrite E2. Qed.
  Lemma gone_seen x k a : invA x → c_socks x !! k = Some a → u_place (seen_sock x a) = Gone ↔ sk_can_join a = false.
  Proof.
    intros A Ek. cbn. destruct (sk_connected a) eqn:Ec; [|by destruct (sk_can_join a)]. by rewrite (ia_live _ A k a Ek Ec).
  Qed.
  Lemma sim_join L k rs s u : invPC s.1 → sim L s u →
    sim L (join k rs s) (match us_socks u.1 !! k with
                         | Some a => if decide (u_place a = Gone) then u else on_u (rooms_at [k] (λ X, X ∪ list_to_set rs)) u
                         | None => u
                         end).
  Proof.
    intros PC H. rewrite <- (proj1 H), seen_lookup. destruct (c_socks s.1 !! k) as [a|] eqn:Ek; cbn [fmap option_fmap option_map].
    - case_decide as Hg; rewrite (gone_seen _ k a (pc_a _ PC) Ek) in Hg.
      + unfold join. by rewrite Ek, Hg.
      + apply not_false_iff_true in Hg. apply (sim_to L s); [done|apply join_log|]. apply (seen_join k a); [by apply PC_alone|done..].
    - unfold join. by rewrite Ek.
  Qed.
  Lemma sim_leave L k r s u : invPC s.1 → sim L s u →
    sim L (leave k r s) (match us_socks u.1 !! k with
                         | Some a => on_u (rooms_at (those (λ b, bool_decide (u_id b = u_id a ∧ u_nsp b = u_nsp a)) u.1) (λ X, X ∖ {[r]})) u
                         | None => u
                         end).
  Proof.
    intros PC H. pose proof (pc_a _ PC) as A. rewrite <- (proj1 H), seen_lookup. destruct (c_socks s.1 !! k) as [a|] eqn:Ek; cbn [fmap option_fmap option_map].
    - apply (sim_to L s _ _ (λ v, rooms_at _ _ v)); [done|apply leave_log|]. apply userver_eq; try (unfold leave; by rewrite Ek).
      + apply list_eq. intros j. rewrite rooms_lookup, !seen_lookup, leave_socks. destruct (c_socks s.1 !! j) as [b|] eqn:Eb; [|done]. cbn. f_equal.
        assert (rooms_of (reg_of (leave k r s).1 (sk_nsp b)) (sk_id b) =
          if decide (sk_id b = sk_id a ∧ sk_nsp b = sk_nsp a) then rooms_of (reg_of s.1 (sk_nsp b)) (sk_id b) ∖ {[r]} else rooms_of (reg_of s.1 (sk_nsp b)) (sk_id b)) as E.
        { unfold leave. rewrite Ek. cbn. rewrite reg_of_alter. destruct (ia_wf _ A k a Ek) as [Hlt _]. apply lookup_lt_is_Some in Hlt as [np En]. rewrite En. cbn.
          destruct (decide (sk_nsp b = sk_nsp a)) as [Hn|Hn]; [|by rewrite decide_False by tauto].
          assert (reg_of s.1 (sk_nsp b) = np_reg np) as -> by (unfold reg_of; by rewrite Hn, En).
          apply set_eq. intros r'. rewrite del_rooms_of. destruct (decide (sk_id b = sk_id a)) as [Hi|Hi].
          - rewrite decide_True by done. rewrite elem_of_difference, elem_of_singleton. naive_solver.
          - rewrite decide_False by tauto. naive_solver. }
        unfold seen_sock. rewrite E.
        assert (j ∈ those (λ b, bool_decide (u_id b = sk_id a ∧ u_nsp b = sk_nsp a)) (seen s.1) ↔ sk_id b = sk_id a ∧ sk_nsp b = sk_nsp a) as Hin.
        { rewrite elem_of_those, seen_lookup, Eb. cbn. split.
          - intros (b' & [= <-] & Hb). by apply bool_decide_eq_true in Hb.
          - intros Hb. eexists. split; [done|]. by apply bool_decide_eq_true. }
        case_decide as Hd; case_decide as Hd'; try tauto. unfold settle, be. cbn. destruct (sk_can_join b); [done|]. f_equal. set_solver.
      + unfold leave. rewrite Ek. apply list_eq. intros j. unfold rooms_at, seen. cbn. rewrite !list_lookup_fmap, alter_lookup. case_decide; [subst|done]. by destruct (c_nsps s.1 !! sk_nsp a).
    - unfold leave. by rewrite Ek.
  Qed.
  Lemma sim_bulk_rooms L os n opts cb f s u : sords_ok os → invPC s.1 → invR s.1 → sim L s u →
    local_cb (λ s : sys, reg_of s.1 n) (λ s : sys, socks_of s.1 n) cb (λ s, invA s.1) →
    (∀ k s, c_socks (cb k s).1 = c_socks s.1 ∧ (cb k s).2 = s.2) →
    (∀ k a s, invPC s.1 → c_socks s.1 !! k = Some a → sk_can_join a = true → invPC (cb k s).1 ∧ seen (cb k s).1 = rooms_at [k] f (seen s.1)) →
    sim L (apply_nsp os n cb opts s) (on_u (rooms_at (those (meant n opts) u.1) f) u).
  Proof.
    intros Hos PC R H Hl Hs Hcb. destruct (apply_PC os n cb opts s) as (ks & Hnd & -> & Hks & Ht); [|done..|].
    { apply loc_PC; [done|]. intros s' k a PC' Ek Ec. apply (Hcb k a); [done..|]. by eapply (ia_live _ (pc_a _ PC')). }
    assert (∀ k, k ∈ ks → ∃ a, c_socks s.1 !! k = Some a ∧ sk_can_join a = true) as Hc.
    { intros k (a & Ek & Ec & _)%Ht. exists a. split; [done|]. by eapply (ia_live _ (pc_a _ PC)). }
    assert (foldl (λ s k, cb k s) s ks = foldl (λ s k, cb k s) s ks ∧ (foldl (λ s k, cb k s) s ks).2 = s.2 ∧ seen (foldl (λ s k, cb k s) s ks).1 = rooms_at ks f (seen s.1)) as (_ & E2 & E1).
    { clear Ht Hks R H. split; [done|]. revert s PC Hc. induction ks as [|k ks IH]; intros s PC Hc; cbn [foldl]; [by rewrite rooms_nil|].
      apply NoDup_cons in Hnd as [Hk Hnd]. destruct (Hc k) as (a & Ek & Ej); [apply elem_of_cons; by left|]. destruct (Hcb k a s PC Ek Ej) as [PC1 E1].
      destruct (Hs k s) as [E3 E4]. destruct (IH Hnd (cb k s) PC1) as [E5 E6].
      - intros j Hj. rewrite E3. apply Hc, elem_of_cons. by right.
      - split; [congruence|]. by rewrite E6, E1, (rooms_cons k ks). }
    eapply sim_to; [done|done|]. rewrite E1. apply rooms_ext; [|done]. intros k. by rewrite Hks, (proj1 H).
  Qed.
  Lemma sim_bulk_join L os n rs opts s u : sords_ok os → invPC s.1 → invR s.1 → sim L s u →
    sim L (apply_nsp os n (λ k s, join k rs s) opts s) (on_u (rooms_at (those (meant n opts) u.1) (λ X, X ∪ list_to_set rs)) u).
  Proof.
    intros Hos PC R H. apply sim_bulk_rooms; try done.
    - apply join_loc.
    - intros k s'. split; [apply join_socks|apply join_log].
    - intros k a s' PC' Ek Ej. split; [by eapply join_PC|eapply seen_join; [by apply PC_alone|done..]].
  Qed.
  Lemma sim_bulk_leave L os n rs opts s u : sords_ok os → invPC s.1 → invR s.1 → sim L s u →
    sim L (apply_nsp os n (λ k s, foldl (λ s r, leave k r s) s rs) opts s) (on_u (rooms_at (those (meant n opts) u.1) (λ X, X ∖ list_to_set rs)) u).
  Proof.
    intros Hos PC R H. apply sim_bulk_rooms; try done.
    - apply leaves_loc.
    - intros k s'. clear. revert s'. induction rs as [|r rs IH]; intros s; [done|]. cbn. destruct (IH (leave k r s)) as [-> ->]. split; [apply leave_socks|apply leave_log].
    - intros k a s'. clear R H PC. revert s'. induction rs as [|r rs IH]; intros s1 PC1 Ek Ej; cbn [foldl].
      + split; [done|]. rewrite <- (rooms_nil (λ X, X) (seen s1.1)) at 1. apply userver_eq; try done. apply list_eq. intros j. rewrite !rooms_lookup.
        destruct (us_socks (seen s1.1) !! j) as [b|]; [|done]. cbn. f_equal. rewrite decide_False by apply not_elem_of_nil. case_decide; [|done].
        unfold settle, be. destruct b. cbn. f_equal. set_solver.
      + destruct (IH (leave k r s1)) as [PC2 E2]; [by eapply leave_PC|by rewrite leave_socks|done|]. split; [done|]. rewrite E2, (seen_leave k a) by (done || by apply PC_alone). rewrite rooms_comp.
        apply rooms_ext; [done|]. intros X. cbn. set_solver.
  Qed.

  (** ** Emissions *)
  Lemma u_broadcast_eq n d opts u : u_broadcast n d opts u =
    (u.1, u.2 ++ omap (λ k, (λ a, EWrite (u_client a) (Packet EVENT (u_name u.1 n) d None)) <$> us_socks u.1 !! k) (those (meant n opts) u.1)).
  Proof.
    unfold u_broadcast. generalize (those (meant n opts) u.1). intros K. revert u. induction K as [|k K IH]; intros u; cbn [foldl omap list_omap]; [by rewrite app_nil_r; destruct u|].
    destruct (us_socks u.1 !! k) as [a|]; cbn [fmap option_fmap option_map]; rewrite IH; [|done]. cbn. by rewrite <- app_assoc.
  Qed.
  Lemma sim_broadcast L os n d opts s u : sords_ok os → invPC s.1 → invR s.1 → sim L s u →
    sim L (broadcast os n EVENT d opts s) (u_broadcast n d opts u) ∧ (broadcast os n EVENT d opts s).1 = s.1.
  Proof.
    intros Hos PC R H. destruct (broadcast_delivered os n d opts s Hos (pc_a _ PC) (pc_c _ PC) R) as (ks & Hnd & Ht & E1 & E2). split; [|done].
    rewrite u_broadcast_eq. eapply sim_step; [exact H|exact E2| |].
    - rewrite E1. apply H.
    - rewrite <- (proj1 H), name_seen. rewrite <- (targets_perm _ _ _ ks (pc_a _ PC) Hnd Ht). clear. induction ks as [|k ks IH]; [done|]. cbn. rewrite seen_lookup.
      destruct (c_socks s.1 !! k); cbn; [by rewrite IH|done].
  Qed.
  Lemma sim_emit L os k d off s u : sords_ok os → invPC s.1 → invR s.1 → sim L s u → sim L (emit csr os k d off s) (u_emit csr k d off u).
  Proof.
    intros Hos PC R H. unfold emit, u_emit. rewrite <- (proj1 H), seen_lookup. destruct (c_socks s.1 !! k) as [a|] eqn:Ek; [|done]. cbn [fmap option_fmap option_map].
    destruct csr; [by apply sim_broadcast|by apply sim_packet].
  Qed.
  Lemma sim_parent_broadcast L os p d off opts s u : sords_ok os → invPC s.1 → invR s.1 → sim L s u →
    sim L (parent_broadcast csr os p d off opts s) (u_parent_broadcast csr os p d off opts u).
  Proof.
    intros Hos PC R H. unfold parent_broadcast, u_parent_broadcast. rewrite <- (proj1 H). change (us_parents (seen s.1)) with (c_parents s.1).
    destruct (c_parents s.1 !! p) as [q|]; [|done]. generalize (so_children os (pa_children q)). intros ns.
    revert d s u PC R H. induction ns as [|n ns IH]; intros d s u PC R H; [done|]. cbn [foldl fst snd].
    destruct (sim_broadcast L os n (offset_data csr (off n) d opts) opts s u Hos PC R H) as [H1 E1]. apply IH; [by rewrite E1..|done].
  Qed.
  Lemma sim_parent_emit L os p d off s u : sords_ok os → invPC s.1 → invR s.1 → sim L s u →
    sim L (parent_emit csr os p d off s) (u_parent_emit csr os p d off u).
  Proof.
    intros Hos PC R H. unfold parent_emit, u_parent_emit. cbv zeta. rewrite <- (proj1 H). change (us_parents (seen s.1)) with (c_parents s.1).
    destruct (c_parents s.1 !! p) as [q|]; [|done]. generalize (so_children os (pa_children q)). intros ns.
    revert s u PC R H. induction ns as [|n ns IH]; intros s u PC R H; [done|]. cbn [foldl].
    set (dd := offset_data csr (off n) d _). set (oo := Some _). destruct (sim_broadcast L os n dd oo s u Hos PC R H) as [H1 E1]. apply IH; [by rewrite E1..|done].
  Qed.

  (** ** Errors, the end of the server *)
  Lemma sim_error L os c s u : sords_ok os → invPC s.1 → sim L s u → sim L (client_onerror os c s) (u_hangup c (u.1, u.2 ++ (EErr <$> those (of_conn c) u.1))).
  Proof.
    intros Hos PC H. unfold client_onerror. apply sim_hangup.
    assert (∀ l (s : sys), foldl (λ s i, match csocks_of s.1 c !! i with Some k => log (EErr k) s | None => s end) s l =
      (s.1, s.2 ++ ((λ k, (s.1, EErr k)) <$> omap (λ i, csocks_of s.1 c !! i) l))) as E.
    { clear. induction l as [|i l IH]; intros s; cbn; [by rewrite app_nil_r; destruct s|]. rewrite IH. destruct (csocks_of s.1 c !! i); cbn; [by rewrite <- app_assoc|done]. }
    unfold range_client. rewrite E. eapply sim_step; [exact H|done|apply H|]. rewrite <- (proj1 H), <- (conn_table os c s Hos PC), <- list_fmap_compose. done.
  Qed.
  Lemma onclose_loc n os r : sords_ok os → loc n (onclose csr clean os r).
  Proof.
    intros Hos s id k PC E. destruct (ia_nsock _ (pc_a _ PC) n id k E) as (a & Ek & <- & Hn & Hc). split; [|by apply onclose_PC].
    apply onclose_agrees; try done. apply PC.
  Qed.
  Lemma sim_shutdown L os s u : sords_ok os → invPC s.1 → sim L s u →
    sim L (shutdown csr clean os s)
      (u_close csr clean "server shutting down" (those (λ a, here a && bool_decide (us_names u.1 !! u_name u.1 (u_nsp a) = Some (u_nsp a))) u.1) u).
  Proof.
    intros Hos PC H. unfold shutdown. match goal with |- context [foldl ?f s _] => set (F := f) end.
    assert (∀ l (s : sys), invPC s.1 → NoDup l → ∃ ks, foldl F s l = foldl (close1 csr clean false os "server shutting down") s ks ∧ NoDup ks ∧
      ∀ k, k ∈ ks ↔ ∃ a, us_socks (seen s.1) !! k = Some a ∧ here a = true ∧ u_name (seen s.1) (u_nsp a) ∈ l ∧
        us_names (seen s.1) !! u_name (seen s.1) (u_nsp a) = Some (u_nsp a)) as HF.
    { clear s u PC H. intros l. induction l as [|m l IH]; intros s PC Hnd.
      { exists []. split; [done|]. split; [constructor|]. intros k. split; [by intros ?%elem_of_nil|]. intros (a & _ & _ & ?%elem_of_nil & _). done. }
      apply NoDup_cons in Hnd as [Hm Hnd]. cbn [foldl]. destruct (c_reg s.1 !! m) as [n|] eqn:Em.
      - destruct (ia_name _ (pc_a _ PC) m n Em) as (np & En & Hnm).
        set (l' := so_nsock os m (dom (socks_of s.1 n))). assert (NoDup l') as Hnd' by (apply order_NoDup, Hos).
        set (ks1 := omap (λ i, socks_of s.1 n !! i) l').
        assert (F s m = foldl (close1 csr clean false os "server shutting down") s ks1) as E1.
        { assert (∀ (l : list sid) (s : sys), foldl (λ s i, match socks_of s.1 n !! i with Some k => onclose csr clean os "server shutting down" k s | None => s end) s l =
            run_cbs (λ s : sys, socks_of s.1 n) (onclose csr clean os "server shutting down") l s) as Er by (clear; intros l; induction l as [|i l IH]; intros s; [done|]; apply IH).
          unfold F. rewrite Em. fold l'. rewrite Er. apply (run_cbs_fold (λ s : sys, reg_of s.1 n) (λ s : sys, socks_of s.1 n) (onclose csr clean os "server shutting down") (λ s, invPC s.1) l' s); [by apply onclose_loc|done|done]. }
        assert (∀ k, k ∈ ks1 ↔ ∃ a, us_socks (seen s.1) !! k = Some a ∧ here a = true ∧ u_nsp a = n) as Hk1.
        { intros k. unfold ks1. rewrite elem_of_list_omap. split.
          - intros (i & _ & Ei). destruct (ia_nsock _ (pc_a _ PC) _ _ _ Ei) as (a & Ek & _ & Hn & Hc). exists (seen_sock s.1 a). rewrite seen_lookup, Ek, here_seen. done.
          - intros (b & (a & Ek & ->)%seen_lookup_Some & Hh & Hn). rewrite here_seen in Hh. cbn in Hn. destruct (pc_c _ PC k a Ek Hh) as (E & _). rewrite Hn in E.
            exists (sk_id a). split; [|done]. apply order_elem; [apply Hos|]. by apply elem_of_dom. }
        assert (NoDup ks1) as Hndk by (apply omap_socks_NoDup; [apply PC|done]).
        assert (∀ k, k ∈ ks1 → connected s.1 k) as Hc1.
        { intros k (b & (a & Ek & ->)%seen_lookup_Some & Hh & _)%Hk1. rewrite here_seen in Hh. by exists a. }
        destruct (sim_closes csr clean s.2 false os "server shutting down" ks1 s (seen s.1, [])) as [Es _]; [done|done|done|done| |].
        { split; [done|]. exists []. by rewrite app_nil_r. }
        cbn [fst] in Es. rewrite E1. set (s1 := foldl _ s ks1) in *. destruct (IH s1) as (ks2 & E2 & Hnd2 & Hk2); [by apply closes_PC|done|].
        rewrite Es in Hk2. change (u_name (depart ks1 (seen s.1))) with (u_name (seen s.1)) in Hk2.
        assert (u_name (seen s.1) n = m) as Hnam by (rewrite name_seen; unfold name_of; by rewrite En).
        exists (ks1 ++ ks2). split; [by rewrite foldl_app|]. split.
        + apply NoDup_app. split; [done|]. split; [|done]. intros k Hk (b & Eb & Hh & _)%Hk2. rewrite depart_lookup in Eb.
          destruct (us_socks (seen s.1) !! k); [|done]. cbn in Eb. rewrite decide_True in Eb by done. injection Eb as <-. done.
        + assert (∀ m', m' ≠ m → us_names (depart ks1 (seen s.1)) !! m' = us_names (seen s.1) !! m') as Hnames.
          { intros m' Hm'. rewrite depart_names, decide_False; [done|]. intros (n' & np' & En' & Hn' & _ & Hends)%elem_of_ended.
            apply ends_spec in Hends as (_ & (k & a & Hk & Ek & Hn) & _). apply Hk1 in Hk as (a' & Ek' & _ & Hna'). rewrite Ek in Ek'. injection Ek' as <-.
            rewrite Hn in Hna'. subst n'. rewrite nsps_lookup, En in En'. injection En' as <-. cbn in Hn'. congruence. }
          intros k. rewrite elem_of_app, Hk1, Hk2. split.
          * intros [(a & Ek & Hh & <-)|(a & Ek & Hh & Hin & Hreg)].
            -- exists a. rewrite Hnam. split; [done|]. split; [done|]. split; [apply elem_of_cons; by left|done].
            -- rewrite depart_lookup in Ek. destruct (us_socks (seen s.1) !! k) as [a'|] eqn:Ek'; [|done]. cbn in Ek. destruct (decide (k ∈ ks1)); injection Ek as <-; [done|].
               exists a'. split; [done|]. split; [done|]. split; [apply elem_of_cons; by right|]. rewrite Hnames in Hreg; [done|]. intros E'. by rewrite E' in Hin.
          * intros (a & Ek & Hh & Hin & Hreg). destruct (decide (u_nsp a = n)) as [Hn|Hn]; [left; eauto|]. right. exists a.
            assert (k ∉ ks1) as Hk. { intros (a' & Ek' & _ & Hn')%Hk1. congruence. }
            rewrite depart_lookup, Ek. cbn. rewrite decide_False by done. split; [done|]. split; [done|].
            assert (u_name (seen s.1) (u_nsp a) ≠ m) as Hne. { intros E. rewrite E in Hreg. change (c_reg s.1 !! m = Some (u_nsp a)) in Hreg. congruence. }
            apply elem_of_cons in Hin as [?|Hin]; [done|]. split; [done|]. by rewrite Hnames.
      - assert (F s m = s) as -> by (unfold F; by rewrite Em). destruct (IH s PC Hnd) as (ks & E & Hn & Hk). exists ks. split; [done|]. split; [done|]. intros k. rewrite Hk.
        split; intros (a & Ek & Hh & Hin & Hreg); exists a; (split; [done|]); (split; [done|]); (split; [|done]); [apply elem_of_cons; by right|].
        apply elem_of_cons in Hin as [E'|?]; [|done]. rewrite E' in Hreg. change (c_reg s.1 !! m = Some (u_nsp a)) in Hreg. congruence. }
    destruct (HF (so_nsps os (dom (c_reg s.1))) s PC) as (ks & E & Hnd & Hk); [apply order_NoDup, Hos|]. rewrite E.
    assert (ks ≡ₚ those (λ a, here a && bool_decide (us_names u.1 !! u_name u.1 (u_nsp a) = Some (u_nsp a))) u.1) as Hp.
    { apply NoDup_Permutation; [done|apply those_NoDup|]. intros k. rewrite Hk, elem_of_those, <- (proj1 H). split.
      - intros (a & Ek & Hh & _ & Hr). exists a. split; [done|]. rewrite Hh. by apply bool_decide_eq_true.
      - intros (a & Ek & Hh). apply andb_true_iff in Hh as [Hh Hr%bool_decide_eq_true]. exists a. split; [done|]. split; [done|]. split; [|done].
        apply order_elem; [apply Hos|]. apply elem_of_dom. by exists (u_nsp a). }
    eapply sim_perm; [apply (sim_closes csr clean L false os "server shutting down" ks s u); try done|..].
    - intros k (b & (a & Ek & ->)%seen_lookup_Some & Hh & _)%Hk. rewrite here_seen in Hh. by exists a.
    - cbn [fst]. unfold u_close. cbn [fst]. apply depart_ext. intros k. by rewrite Hp.
    - cbn [snd]. unfold u_close. cbn [snd]. f_equiv. rewrite Hp. done.
  Qed.

  (** ** Arrivals *)
  Notation anyprim := (prim csr clean (λ _ _, True) (λ _ _, True) (λ _, True)).
  Lemma clients_lookup x c : us_clients (seen x) !! c = seen_client <$> c_clients x !! c.
  Proof. unfold seen. cbn. by rewrite list_lookup_fmap. Qed.
  Lemma seen_connect k a x : alone x k a → c_socks x !! k = Some a → sk_can_join a = true →
    seen (conn2 a k x) = with_socks (alter (λ a, be Here ({[u_id a]} ∪ u_rooms a) a) k (us_socks (seen x))) (to_client (sk_client a) no_timer (seen x)).
  Proof.
    intros [Hlt Hu] Ek Ej. apply userver_eq; try done.
    - apply list_eq. intros j. cbn [us_socks with_socks]. rewrite alter_lookup, !seen_lookup. cbn. rewrite alter_lookup.
      assert (∀ n, reg_of (conn2 a k x) n = if decide (n = sk_nsp a) then (add_all (sk_id a) (remove_dups [sk_id a]) (reg_of x n)).1 else reg_of x n) as Hr.
      { intros n. unfold reg_of. cbn. rewrite alter_lookup. case_decide as Hn; [|done]. subst n. apply lookup_lt_is_Some in Hlt as [np ->]. done. }
      destruct (decide (j = k)) as [->|Hj].
      + rewrite Ek. cbn. f_equal. unfold seen_sock, be. cbn. rewrite Hr, decide_True by done. rewrite Ej. f_equal.
        apply set_eq. intros r. rewrite add_all_rooms_of, elem_of_remove_dups, elem_of_list_singleton, elem_of_union, elem_of_singleton. tauto.
      + destruct (c_socks x !! j) as [b|] eqn:Eb; [|done]. cbn. f_equal. unfold seen_sock. f_equal. destruct (sk_can_join b) eqn:Ejb; [|done]. rewrite Hr.
        case_decide as Hn; [|done]. apply set_eq. intros r. rewrite add_all_rooms_of. specialize (Hu j b Hj Eb Ejb). naive_solver.
    - apply list_eq. intros j. unfold to_client. cbn [us_clients with_clients with_socks]. rewrite alter_lookup, !clients_lookup. cbn. rewrite alter_lookup. case_decide; [|done]. by destruct (c_clients x !! j).
    - unfold with_socks, to_client, with_clients, seen. cbn. apply list_eq. intros j. rewrite !list_lookup_fmap, alter_lookup. case_decide; [|done]. by destruct (c_nsps x !! j).
  Qed.
  Lemma sim_connect L k a s u : alone s.1 k a → c_socks s.1 !! k = Some a → sk_can_join a = true → is_open s.1 (sk_client a) = true → sim L s u →
    sim L (do_connect k s) (u_connect k u).
  Proof.
    intros Hal Ek Ej Eo H. rewrite (do_connect_eq k a s Ek Ej Eo). unfold u_connect. rewrite <- (proj1 H), seen_lookup, Ek. cbn [fmap option_fmap option_map].
    eapply sim_step; [exact H|done| |].
    - cbn [fst]. by apply seen_connect.
    - cbn [fmap list_fmap]. unfold hello. cbn [snd]. rewrite name_seen, clients_lookup, nsps_lookup. cbn.
      destruct (c_clients s.1 !! sk_client a); destruct (c_nsps s.1 !! sk_nsp a); done.
  Qed.
  Lemma seen_push a x : invA x → sk_connected a = false → sk_can_join a = true →
    (∀ j b, c_socks x !! j = Some b → sk_can_join b = true → sk_id b ≠ sk_id a) →
    seen (set_socks (c_socks x ++ [a]) x) = with_socks (us_socks (seen x) ++ [USock (sk_id a) (sk_nsp a) (sk_client a) (sk_recovered a) Waiting ∅]) (seen x).
  Proof.
    intros A Ec Ej Hu. unfold with_socks, seen. cbn. f_equal. rewrite fmap_app. f_equal. cbn. f_equal.
    unfold seen_sock. rewrite Ec, Ej. f_equal. change (rooms_of (reg_of x (sk_nsp a)) (sk_id a) = ∅).
    unfold rooms_of. destruct (rg_sids (reg_of x (sk_nsp a)) !! sk_id a) as [rs|] eqn:E; [|done].
    destruct (ia_room _ A (sk_nsp a) (sk_id a)) as (k & b & Ek & Hid & _ & Hj); [by eexists|]. by destruct (Hu k b Ek Hj).
  Qed.
  Definition fresh (c n : nat) (x : arrival) (s : sys) : Prop :=
    ∀ j b, c_socks s.1 !! j = Some b → sk_can_join b = true → sk_id b ≠ new_id csr c n x s.
  Lemma sim_push L a s u : invA s.1 → sk_connected a = false → sk_can_join a = true →
    (∀ j b, c_socks s.1 !! j = Some b → sk_can_join b = true → sk_id b ≠ sk_id a) → sim L s u →
    sim L (on_core (λ y, set_socks (c_socks y ++ [a]) y) s)
      (with_socks (us_socks u.1 ++ [USock (sk_id a) (sk_nsp a) (sk_client a) (sk_recovered a) Waiting ∅]) u.1, u.2).
  Proof.
    intros A Ec Ej Hu H. apply (sim_core L s u (λ y, set_socks (c_socks y ++ [a]) y) (λ v, with_socks (us_socks v ++ [_]) v)); [done|]. by apply seen_push.
  Qed.
  Lemma sim_packets L k (l : list (list value)) s u : sim L s u → sim L (foldl (λ s d, sock_packet k EVENT d s) s l) (foldl (λ u d, u_packet EVENT d u k) u l).
  Proof. revert s u. induction l as [|d l IH]; intros s u H; [done|]. cbn. by apply IH, sim_packet. Qed.
  Lemma joins_seen k a (rs : list room) s : alone s.1 k a → c_socks s.1 !! k = Some a → sk_can_join a = true →
    seen (foldl (λ s r, join k [r] s) s rs).1 = rooms_at [k] (λ X, X ∪ list_to_set rs) (seen s.1) ∧ (foldl (λ s r, join k [r] s) s rs).2 = s.2.
  Proof.
    revert s. induction rs as [|r rs IH]; intros s Hal Ek Ej; cbn [foldl].
    - split; [|done]. rewrite <- (rooms_nil (λ X, X) (seen s.1)) at 1. apply userver_eq; try done. apply list_eq. intros j. rewrite !rooms_lookup.
      destruct (us_socks (seen s.1) !! j) as [b|]; [|done]. cbn. f_equal. rewrite decide_False by apply not_elem_of_nil. case_decide; [|done].
      unfold settle, be. destruct b. cbn. f_equal. set_solver.
    - destruct (IH (join k [r] s)) as [E1 E2].
      + destruct Hal as [Hlt Hu]. split; [|by rewrite join_socks]. unfold join. rewrite Ek, Ej. cbn. by rewrite alter_length.
      + by rewrite join_socks.
      + done.
      + rewrite E1, E2. split; [|apply join_log]. rewrite (seen_join k a) by done. rewrite rooms_comp. apply rooms_ext; [done|]. intros X. cbn. set_solver.
  Qed.
  Lemma socks_length x : length (us_socks (seen x)) = length (c_socks x).
  Proof. apply fmap_length. Qed.
  Lemma sim_create L c n x s u : invA s.1 → n < length (c_nsps s.1) → fresh c n x s → sim L s u → sim L (create_socket csr c n x s) (u_create csr c n x u).
  Proof.
    intros A Hn Hf H. unfold create_socket, u_create. unfold fresh, new_id in Hf. cbv zeta. destruct (if csr then x_prev x else None) as [[[i rs] missed]|].
    - assert (length (us_socks u.1) = length (c_socks s.1)) as -> by (rewrite <- (proj1 H); apply socks_length). apply sim_packets.
      set (a := Sock i n c false true true). pose proof (sim_push L a s u A eq_refl eq_refl Hf H) as H1. set (s1 := on_core _ s) in *.
      set (k := length (c_socks s.1)). assert (c_socks s1.1 !! k = Some a) as Ek. { cbn. by rewrite lookup_app_r, Nat.sub_diag by done. }
      assert (alone s1.1 k a) as Hal.
      { split; [done|]. intros j b Hj Eb Hb. cbn in Eb. apply lookup_app_Some in Eb as [Eb|[Hge Eb]]; [by eapply Hf|]. apply list_lookup_singleton_Some in Eb as [Hz _]. unfold k in *. lia. }
      destruct (joins_seen k a rs s1 Hal Ek eq_refl) as [E1 E2].
      eapply sim_perm; [eapply sim_to; [exact H1|exact E2|exact E1]|..]; cbn [fst snd on_u]; [|done].
      rewrite <- (proj1 H). apply userver_eq; try done. apply list_eq. intros j. rewrite rooms_lookup. cbn [us_socks with_socks].
      destruct (decide (j = k)) as [->|Hj].
      + rewrite !lookup_app_r by (rewrite socks_length; done). rewrite socks_length, Nat.sub_diag. cbn. rewrite decide_True by (by apply elem_of_list_singleton).
        unfold settle, be. cbn. do 2 f_equal. set_solver.
      + destruct (us_socks (seen s.1) !! j) as [b|] eqn:Eb.
        * rewrite !lookup_app_l by (by eapply lookup_lt_Some). rewrite Eb. cbn. by rewrite decide_False by (by intros ?%elem_of_list_singleton).
        * assert (length (us_socks (seen s.1)) < j) as Hlt. { apply lookup_ge_None in Eb. rewrite socks_length in *. unfold k in Hj. lia. }
          rewrite !lookup_app_r by lia. rewrite !(lookup_ge_None_2 [_]) by (cbn; lia). done.
    - rewrite <- (proj1 H), clients_lookup. rewrite name_seen.
      set (i := match c_clients s.1 !! c with Some _ => _ | None => _ end) in *.
      assert (match seen_client <$> c_clients s.1 !! c with
              | Some cl => if uc_p3 cl then if decide (name_of s.1 n = "/") then uc_id cl else name_of s.1 n +:+ "#" +:+ uc_id cl else x_id x
              | None => x_id x
              end = i) as ->. { unfold i. by destruct (c_clients s.1 !! c). }
      rewrite (proj1 H). by apply (sim_push L (Sock i n c false true false) s u).
  Qed.
  Lemma sim_add L c n x s u : invA s.1 → n < length (c_nsps s.1) → fresh c n x s → sim L s u → sim L (add csr skip c n x s) (u_add csr skip c n x u).
  Proof.
    intros A Hn Hf H. pose proof (sim_create L c n x s u A Hn Hf H) as H1. unfold add, u_add. cbv zeta. assert (length (us_socks u.1) = length (c_socks s.1)) as -> by (rewrite <- (proj1 H); apply socks_length).
    rewrite <- (proj1 H1), open_seen. destruct (create_socket_socks csr c n x s) as (a & Es & Ec & Ej & Hna & Hca & Hcl & _ & Hid).
    destruct (skip && _ && is_open (create_socket csr c n x s).1 c) eqn:E; [|done]. apply andb_true_iff in E as [_ Eo].
    assert (c_socks (create_socket csr c n x s).1 !! length (c_socks s.1) = Some a) as Ek. { by rewrite Es, lookup_app_r, Nat.sub_diag by done. }
    apply (sim_connect L _ a); try done; [|by rewrite Hca]. split.
    - rewrite Hna. destruct (create_socket_nsps csr c n x s) with n (default (Nspc "" None empty_registry ∅ [] []) (c_nsps s.1 !! n)) as (np & Hnp & _).
      + apply lookup_lt_is_Some in Hn as [np ->]. done.
      + by eapply lookup_lt_Some.
    - intros j b Hj Eb Hb. rewrite Es in Eb. rewrite Hid. apply lookup_app_Some in Eb as [Eb|[Hge Eb]]; [by eapply Hf|]. apply list_lookup_singleton_Some in Eb as [Hz _]. lia.
  Qed.
  Lemma sim_verdict L os k err s u : sords_ok os → invPC s.1 → pending s.1 k → sim L s u → sim L (verdict clean os k err s) (u_verdict clean k err u).
  Proof.
    intros Hos PC (a & Ek & Ec & Ej) H. unfold verdict, u_verdict. rewrite <- (proj1 H), seen_lookup, Ek. cbn [fmap option_fmap option_map]. rewrite open_seen. cbn [u_client seen_sock].
    assert (sim L (cleanup clean os k s) (on_u (depart [k]) u)) as Hc. { apply (sim_to L s); [done|apply cleanup_log|]. by apply (seen_cleanup clean os k a). }
    destruct (is_open s.1 (sk_client a)) eqn:Eo; [|done]. destruct err as [e|]; [by apply sim_packet|]. apply (sim_connect L k a); try done. by apply PC_alone.
  Qed.

  (** ** Namespaces *)
  Lemma nsps_length x : length (us_nsps (seen x)) = length (c_nsps x).
  Proof. apply fmap_length. Qed.
  Lemma seen_new np f x : invA x → np_reg np = empty_registry →
    seen (set_creg (<[np_name np := length (c_nsps x)]> (c_reg x)) (set_nsps (c_nsps x ++ [np]) (set_parents (f (c_parents x)) x))) =
    u_new (seen_nsp np) (with_parents (f (us_parents (seen x))) (seen x)).
  Proof.
    intros A E. apply userver_eq; try done.
    - unfold u_new. cbn. apply list_eq. intros j. unfold seen. cbn. rewrite !list_lookup_fmap. destruct (c_socks x !! j) as [a|] eqn:Ea; [|done]. cbn. f_equal. unfold seen_sock. f_equal.
      destruct (sk_can_join a); [|done]. f_equal. unfold reg_of. cbn. destruct (ia_wf _ A j a Ea) as [Hlt _]. by rewrite lookup_app_l.
    - unfold u_new, seen. cbn. by rewrite fmap_app.
    - unfold u_new. cbn [us_names with_names]. cbn [us_nsps with_parents]. by rewrite nsps_length.
  Qed.
  Lemma sim_child L p name s u : invA s.1 → sim L s u → sim L (create_child p name s) (u_child p name u).
  Proof.
    intros A H. unfold create_child, u_child. rewrite <- (proj1 H) at 1. change (us_parents (seen s.1)) with (c_parents s.1).
    destruct (c_parents s.1 !! p) as [q|]; [|done]. cbv zeta.
    assert (length (us_nsps u.1) = length (c_nsps s.1)) as -> by (rewrite <- (proj1 H); apply nsps_length).
    apply sim_log. apply (sim_to L s); [done|done|].
    exact (seen_new (Nspc name (Some p) empty_registry ∅ (pa_on q) (pa_fns q)) (alter (λ q, pa_set_children ({[length (c_nsps s.1)]} ∪ pa_children q) q) p) s.1 A eq_refl).
  Qed.
  Lemma seen_on n f x : seen (set_nsps (alter (np_add_on f) n (c_nsps x)) x) =
    with_nsps (alter (λ np, UNsp (un_name np) (un_parent np) (un_on np ++ [f]) (un_fns np)) n (us_nsps (seen x))) (seen x).
  Proof.
    apply userver_eq; try done.
    - cbn. apply list_eq. intros j. unfold seen. cbn. rewrite !list_lookup_fmap. destruct (c_socks x !! j) as [a|]; [|done]. cbn. f_equal. unfold seen_sock. by rewrite reg_alter.
    - cbn [us_nsps with_nsps]. apply list_eq. intros j. rewrite alter_lookup, !nsps_lookup. cbn. rewrite alter_lookup. case_decide; [|done]. by destruct (c_nsps x !! j).
  Qed.
  Lemma seen_use n f x : seen (set_nsps (alter (np_add_fn f) n (c_nsps x)) x) =
    with_nsps (alter (λ np, UNsp (un_name np) (un_parent np) (un_on np) (un_fns np ++ [f])) n (us_nsps (seen x))) (seen x).
  Proof.
    apply userver_eq; try done.
    - cbn. apply list_eq. intros j. unfold seen. cbn. rewrite !list_lookup_fmap. destruct (c_socks x !! j) as [a|]; [|done]. cbn. f_equal. unfold seen_sock. by rewrite reg_alter.
    - cbn [us_nsps with_nsps]. apply list_eq. intros j. rewrite alter_lookup, !nsps_lookup. cbn. rewrite alter_lookup. case_decide; [|done]. by destruct (c_nsps x !! j).
  Qed.
  Lemma sim_of L os raw fn s u : invA s.1 → sim L s u → sim L (of_name os raw fn s) (u_of os raw fn u).
  Proof.
    intros A H. unfold of_name, u_of. cbv zeta. rewrite <- (proj1 H). change (us_names (seen s.1)) with (c_reg s.1).
    destruct (c_reg s.1 !! norm raw) as [n|] eqn:Er.
    - destruct fn as [f|]; [|done]. cbn [foldl]. apply sim_core; [done|]. apply seen_on.
    - change (head (filter (u_regex (seen s.1) (norm raw)) (so_parents os (seq 0 (length (us_parents (seen s.1))))))) with (first_match os s.1 (norm raw)).
      destruct (first_match os s.1 (norm raw)) as [p|]; [by apply sim_child|].
      rewrite nsps_length. set (n := length (c_nsps s.1)).
      set (s1 := new_nsp (Nspc (norm raw) None empty_registry ∅ [] []) s). set (s2 := if decide (norm raw = "/") then s1 else log (ENewNsp n) s1).
      assert (s2.1 = s1.1) as E2 by (unfold s2; by case_decide).
      assert (sim L s1 (on_u (u_new (UNsp (norm raw) None [] [])) u)) as H1.
      { apply (sim_to L s); [done|done|]. 
        etransitivity; [exact (seen_new (Nspc (norm raw) None empty_registry ∅ [] []) (λ l, l) s.1 A eq_refl)|done]. }
      assert (sim L s2 ((λ u, if decide (norm raw = "/") then u else say (ENewNsp n) u) (on_u (u_new (UNsp (norm raw) None [] [])) u))) as H2.
      { unfold s2. case_decide; [done|]. by apply sim_log. }
      destruct fn as [f|]; [|exact H2].
      change (sim L (match c_reg s2.1 !! norm raw with Some n => upd_nsp n (np_add_on f) s2 | None => s2 end)
        ((λ u, if decide (norm raw = "/") then u else say (ENewNsp n) u) (on_u (u_new (UNsp (norm raw) None [f] [])) u))). rewrite E2.
      assert (c_reg s1.1 !! norm raw = Some n) as -> by (cbn; by rewrite lookup_insert).
      eapply sim_perm; [apply (sim_core L s2 _ _ (λ v, with_nsps (alter (λ np, UNsp (un_name np) (un_parent np) (un_on np ++ [f]) (un_fns np)) n (us_nsps v)) v) H2); apply seen_on|..].
      + assert (∀ w : ustate, (if decide (norm raw = "/") then w else say (ENewNsp n) w).1 = w.1) as Hw by (intros; by case_decide). cbn [on_u fst]. rewrite !Hw. cbn [on_u fst].
        unfold with_nsps, u_new, with_names. cbn. f_equal. rewrite <- (proj1 H). apply list_eq. intros j. rewrite alter_lookup. destruct (decide (j = n)) as [->|Hj].
        * rewrite !lookup_app_r by (rewrite nsps_length; done). rewrite nsps_length. unfold n. by rewrite Nat.sub_diag.
        * destruct (us_nsps (seen s.1) !! j) as [np|] eqn:Ej; [by rewrite !lookup_app_l by (by eapply lookup_lt_Some)|].
          assert (n < j) by (apply lookup_ge_None in Ej; rewrite nsps_length in Ej; unfold n in *; lia).
          rewrite !lookup_app_r by (rewrite nsps_length; unfold n in *; lia). rewrite nsps_length. rewrite !(lookup_ge_None_2 [_]) by (cbn; unfold n in *; lia). done.
      + cbn [on_u snd]. by case_decide.
  Qed.

  (** A name is asked for. *)
  Definition welcome (s s' : sys) : Prop :=
    ∀ a, c_socks s'.1 !! length (c_socks s.1) = Some a → ∀ j b, c_socks s.1 !! j = Some b → sk_can_join b = true → sk_id b ≠ sk_id a.
  Lemma add_fresh c n x s : welcome s (add csr skip c n x s) → fresh c n x s.
  Proof.
    intros Hw j b Eb Hb. destruct (create_socket_socks csr c n x s) as (a & Es & _ & _ & _ & _ & _ & _ & Hid).
    destruct (add_grows csr skip c n x s (length (c_socks s.1)) a) as (a' & Ea' & La); [by rewrite Es, lookup_app_r, Nat.sub_diag by done|].
    rewrite <- Hid, <- (la_id _ _ La). by apply (Hw a' Ea' j).
  Qed.
  Lemma of_A os name fn s : sords_ok os → invA s.1 → invA (of_name os name fn s).1.
  Proof. intros Hos A. eapply (invA_rtc csr clean (λ _ _, True) (λ _ _, True) (λ _, True)); [by apply of_name_prims|done]. Qed.
  Lemma sim_do_connect L os c name x s u : sords_ok os → invA s.1 → welcome s (client_do_connect csr skip os c name x s) → sim L s u →
    sim L (client_do_connect csr skip os c name x s) (u_do_connect csr skip os c name x u).
  Proof.
    intros Hos A Hw H. unfold client_do_connect, u_do_connect in *. cbv zeta in *. pose proof (sim_of L os name None s u A H) as H1.
    pose proof (of_A os name None s Hos A) as A1. destruct (of_name_frame os name None s) as [_ Es]. set (s1 := of_name os name None s) in *.
    rewrite <- (proj1 H1). change (us_names (seen s1.1)) with (c_reg s1.1). destruct (c_reg s1.1 !! norm name) as [n|] eqn:En; [|done].
    destruct (ia_name _ A1 _ _ En) as (np & Hnp & _). apply sim_add; [done|by eapply lookup_lt_Some| |done].
    apply add_fresh. unfold welcome in *. by rewrite Es.
  Qed.
  Lemma child_A p name s : invA s.1 → c_reg s.1 !! name = None → invA (create_child p name s).1.
  Proof.
    intros A Er. destruct (c_parents s.1 !! p) as [q|] eqn:Ep; [|unfold create_child; by rewrite Ep].
    eapply (invA_prim csr clean (λ _ _, True) (λ _ _, True) (λ _, True)); [by eapply pr_child|done].
  Qed.
  Lemma sim_accept L os c p name x s u : sords_ok os → invA s.1 → welcome s (accept csr skip os c p name x s) → sim L s u →
    sim L (accept csr skip os c p name x s) (u_accept csr skip os c p name x u).
  Proof.
    intros Hos A Hw H. unfold accept, u_accept in *. cbv zeta in *. rewrite <- (proj1 H) at 1. change (us_names (seen s.1)) with (c_reg s.1).
    destruct (c_reg s.1 !! name) as [n|] eqn:En; [by apply sim_do_connect|]. apply sim_do_connect; [done|by apply child_A| |by apply sim_child].
    unfold welcome in *. by rewrite create_child_socks.
  Qed.
  Lemma ask_eq x ans name ps : u_ask (seen x) ans name ps = check_loop x ans name ps.
  Proof. induction ps as [|p ps IH]; [done|]. cbn. rewrite IH. done. Qed.
  Lemma sim_enter L os c name ans x s u : sords_ok os → invA s.1 → welcome s (connect csr skip os c name ans x s) → sim L s u →
    sim L (connect csr skip os c name ans x s) (u_enter csr skip os c name ans x u).
  Proof.
    intros Hos A Hw H. unfold connect, u_enter in *. rewrite <- (proj1 H). rewrite ask_eq. change (us_names (seen s.1)) with (c_reg s.1). change (us_parents (seen s.1)) with (c_parents s.1).
    destruct (c_reg s.1 !! name) as [n|] eqn:En; [by apply sim_do_connect|]. destruct (check_loop _ _ _ _) as [p|]; [by apply sim_accept|]. by apply sim_write.
  Qed.
  (** The socket of a connection in a namespace. *)
  Lemma joined_those x c m : invPC x → invN x →
    those (λ a, of_conn c a && bool_decide (u_name (seen x) (u_nsp a) = m)) (seen x) = match cnsps_of x c !! m with Some k => [k] | None => [] end.
  Proof.
    intros PC N. set (l := those _ _). assert (∀ k, k ∈ l ↔ joined x c m k) as Hl.
    { intros k. unfold l. rewrite elem_of_those. unfold of_conn, joined. split.
      - intros (b & (a & Ek & ->)%seen_lookup_Some & [[Hh Hc%bool_decide_eq_true]%andb_prop Hn%bool_decide_eq_true]%andb_prop).
        rewrite here_seen in Hh. rewrite name_seen in Hn. by exists a.
      - intros (a & Ek & Hc & Hcl & Hn). exists (seen_sock x a). rewrite seen_lookup, Ek, here_seen, Hc, name_seen. split; [done|]. cbn. by rewrite !bool_decide_eq_true_2. }
    assert (∀ k, joined x c m k → cnsps_of x c !! m = Some k) as Hj.
    { intros k (a & Ek & Hc & <- & <-). by destruct (pc_c _ PC k a Ek Hc) as (_ & _ & ?). }
    assert (NoDup l) as Hnd by apply those_NoDup. destruct (cnsps_of x c !! m) as [k|] eqn:E.
    - destruct (N c m k E) as [Hk _]. apply Permutation_singleton_r. apply NoDup_Permutation; [done|apply NoDup_singleton|]. intros j. rewrite Hl, elem_of_list_singleton. split; [|by intros ->].
      intros Hj'. specialize (Hj j Hj'). congruence.
    - apply elem_of_nil_inv. intros k Hk. apply Hl in Hk. by specialize (Hj k Hk).
  Qed.
  Lemma sim_arrives L os c p ans x s u : sords_ok os → invPC s.1 → invN s.1 → welcome s (ondecoded csr skip clean os c p ans x s) → sim L s u →
    sim L (ondecoded csr skip clean os c p ans x s) (u_arrives csr skip clean os c p ans x u).
  Proof.
    intros Hos PC N Hw H. unfold ondecoded, u_arrives in *. rewrite <- (proj1 H), (joined_those _ c (p_nsp p) PC N).
    destruct (cnsps_of s.1 c !! p_nsp p) as [k|] eqn:E.
    - case_decide; [by apply sim_conn_close|]. by apply sim_core.
    - case_decide; [|by apply sim_conn_close]. apply sim_enter; try done. apply PC.
  Qed.
  Lemma sim_process L os k p s u : sords_ok os → invPC s.1 → sim L s u → sim L (onpacket csr clean os k p s) (u_process csr clean k p u).
  Proof.
    intros Hos PC H. unfold onpacket, u_process.
    assert (∀ s u, sim L s u → sim L (match c_socks s.1 !! k with Some a => if sk_connected a then log (EDispatch k p) s else s | None => s end)
      (if is_here u.1 k then say (EDispatch k p) u else u)) as Hd.
    { intros s' u' H'. rewrite <- (proj1 H'), is_here_seen. destruct (c_socks s'.1 !! k) as [a|]; [|done]. destruct (sk_connected a); [by apply sim_log|done]. }
    destruct (p_type p); try done; try (by apply sim_log); try (apply (Hd (log (EAny k p) s) (say (EAny k p) u)); by apply sim_log).
    rewrite <- (proj1 H), is_here_seen. unfold onclose. destruct (c_socks s.1 !! k) as [a|] eqn:Ek; [|done]. destruct (sk_connected a) eqn:Ec; [|done].
    pose proof (sim_onclose csr clean L os "client namespace disconnect" k a s u PC Hos Ek Ec H) as H1. unfold onclose in H1. rewrite Ek, Ec in H1.
    eapply sim_perm; [exact H1|..]; [done|]. unfold u_close. cbn [snd]. by rewrite bind_singleton.
  Qed.
  Lemma empty_those x c cl : invPC x → invN x → c_clients x !! c = Some cl → cl_nsps cl = ∅ ↔ those (of_conn c) (seen x) = [].
  Proof.
    intros PC N Hc. assert (cnsps_of x c = cl_nsps cl) as <- by (unfold cnsps_of; by rewrite Hc). split; intros E.
    - apply elem_of_nil_inv. intros k Hk. apply elem_of_those in Hk as (b & (a & Ek & ->)%seen_lookup_Some & [Hh Hcl%bool_decide_eq_true]%andb_prop).
      rewrite here_seen in Hh. cbn in Hcl. destruct (pc_c _ PC k a Ek Hh) as (_ & _ & Hn). by rewrite Hcl, E, lookup_empty in Hn.
    - apply map_empty. intros m. destruct (cnsps_of x c !! m) as [k|] eqn:Em; [|done]. destruct (N c m k Em) as [(a & Ek & Hcon & Hcl & _) _].
      assert (k ∈ those (of_conn c) (seen x)) as Hk; [|rewrite E in Hk; by apply elem_of_nil in Hk].
      apply elem_of_those. exists (seen_sock x a). rewrite seen_lookup, Ek. unfold of_conn. rewrite here_seen, Hcon. split; [done|]. cbn. by apply bool_decide_eq_true.
  Qed.
  Lemma sim_all e s : op_env s e → polite_op csr skip clean s e → invPC s.1 → invN s.1 → invR s.1 →
    sim s.2 (step csr skip clean e s) (u_step csr skip clean e (seen s.1)).
  Proof.
    intros [Hos He] [Hp _] PC N R. pose proof (pc_a _ PC) as A.
    assert (sim s.2 s (seen s.1, [])) as H. { split; [done|]. exists []. by rewrite app_nil_r. }
    assert (welcome s (step csr skip clean e s)) as Hw.
    { intros a Ha j b Hj Hb E. destruct (Hp a Ha j b Hj) as [H1 _]. destruct (H1 E) as [H2 _]. congruence. }
    clear Hp. destruct e as [os o]. cbn [fst] in Hos. unfold u_step, step in *. cbn [fst snd] in *. destruct o.
    - set (s1 := on_core _ s) in *. change (length (us_clients (seen s.1))) with (length ((λ cl, UClient (cl_id cl) (cl_p3 cl) (cl_open cl) (cl_timer cl)) <$> c_clients s.1)).
      rewrite fmap_length. change (with_clients _ _, []) with (on_u (λ v, with_clients (us_clients v ++ [UClient id p3 true true]) v) (seen s.1, [])).
      assert (sim s.2 s1 (on_u (λ v, with_clients (us_clients v ++ [UClient id p3 true true]) v) (seen s.1, []))) as H1.
      { apply sim_core; [done|]. apply userver_eq; try done. unfold seen. cbn. by rewrite fmap_app. }
      destruct p3; [|done]. apply sim_enter; try done. eapply (invA_prim csr clean (λ _ _, True) (λ _ _, True) (λ _, True)); [by eapply pr_open|done].
    - rewrite open_seen. destruct (is_open s.1 c); [|done]. by apply sim_arrives.
    - by apply sim_accept.
    - by apply sim_verdict.
    - change (us_tasks (seen s.1)) with (c_tasks s.1). destruct (c_tasks s.1 !! i) as [[k p]|]; [|done].
      apply sim_process; [done| |].
      + destruct PC as [A' I P C]. split; try done. eapply (invA_prim csr clean (λ _ _, True) (λ _ _, True) (λ _, True)); [|exact A]. apply pr_c, pr_take.
      + by apply (sim_core _ s (seen s.1, []) _ (λ v, with_tasks (delete i (us_tasks v)) v)).
    - rewrite clients_lookup. destruct (c_clients s.1 !! c) as [cl|] eqn:Hc; [|done]. cbn [fmap option_fmap option_map uc_timer].
      rewrite <- (bool_decide_ext _ _ (empty_those s.1 c cl PC N Hc)). destruct (cl_timer cl && _); [|done]. by apply sim_conn_close.
    - apply sim_conn_closed; [done|by apply client_PC|by apply client_sim].
    - by apply (sim_error s.2 os c s (seen s.1, [])).
    - by apply (sim_join s.2 k rs s (seen s.1, [])).
    - by apply (sim_leave s.2 k r s (seen s.1, [])).
    - by apply (sim_disconnect_one s.2 os status k s (seen s.1, [])).
    - by apply sim_emit.
    - by apply sim_of.
    - by apply sim_core.
    - by apply sim_core.
    - by apply sim_core.
    - apply sim_core; [done|]. apply seen_use.
    - by apply sim_broadcast.
    - by apply (sim_bulk_join s.2 os n rs opts s (seen s.1, [])).
    - by apply (sim_bulk_leave s.2 os n rs opts s (seen s.1, [])).
    - destruct status.
      + by apply (sim_bulk_conns s.2 os n opts s (seen s.1, [])).
      + by apply (sim_bulk_disconnect s.2 os n opts s (seen s.1, [])).
    - by apply sim_parent_broadcast.
    - by apply sim_parent_emit.
    - by apply (sim_shutdown s.2 os s (seen s.1, [])).
  Qed.
  Lemma run_sim h e : env_ok csr skip clean (h ++ [e]) → polite csr skip clean (h ++ [e]) →
    sim (run csr skip clean h).2 (run csr skip clean (h ++ [e])) (u_step csr skip clean e (seen (run csr skip clean h).1)).
  Proof.
    intros [He Ho]%env_snoc [Hn Hp]%nice_snoc. rewrite run_snoc. pose proof (run_PC csr skip clean h He Hn) as PC.
    apply sim_all; [done..| |]; [apply run_N; [done|apply PC]|by apply run_R].
  Qed.
  Lemma c66_state_l h : env_ok csr skip clean h → polite csr skip clean h → seen (run csr skip clean h).1 = u_run csr skip clean h.
  Proof.
    induction h as [|e h IH] using rev_ind; intros He Hn; [done|]. destruct (run_sim h e He Hn) as [E _]. rewrite E.
    apply env_snoc in He as [He _]. apply nice_snoc in Hn as [Hn _]. rewrite (IH He Hn). unfold u_run. by rewrite foldl_app.
  Qed.
  Lemma c66_effects_l h e : env_ok csr skip clean (h ++ [e]) → polite csr skip clean (h ++ [e]) →
    ∃ l, (run csr skip clean (h ++ [e])).2 = (run csr skip clean h).2 ++ l ∧ l.*2 ≡ₚ (u_step csr skip clean e (u_run csr skip clean h)).2.
  Proof.
    intros He Hn. destruct (run_sim h e He Hn) as [_ H]. apply env_snoc in He as [He _]. apply nice_snoc in Hn as [Hn _]. by rewrite (c66_state_l h He Hn) in H.
  Qed.

  (** ** The orders in which Go ranges over its maps *)
  Lemma orders_do_connect os os' c name x u : (∀ l, so_parents os l = so_parents os' l) → u_do_connect csr skip os c name x u = u_do_connect csr skip os' c name x u.
  Proof. intros E. unfold u_do_connect, u_of. by rewrite E. Qed.
  Lemma orders_enter os os' c name ans x u : (∀ l, so_parents os l = so_parents os' l) → u_enter csr skip os c name ans x u = u_enter csr skip os' c name ans x u.
  Proof.
    intros E. unfold u_enter, u_accept. rewrite E. destruct (us_names u.1 !! name); [by apply orders_do_connect|].
    destruct (u_ask _ _ _ _); [|done]. by apply orders_do_connect.
  Qed.
  Lemma orders_effects os os' o v : (∀ l, so_parents os l = so_parents os' l) → (∀ X, so_children os X = so_children os' X) →
    u_step csr skip clean (os, o) v = u_step csr skip clean (os', o) v.
  Proof.
    intros E1 E2. unfold u_step. cbn [fst snd]. destruct o; try done.
    - destruct p3; [|done]. by apply orders_enter.
    - destruct (u_open v c); [|done]. unfold u_arrives. destruct (those _ _); [|done]. case_decide; [|done]. by apply orders_enter.
    - by apply orders_do_connect.
    - unfold u_of. by rewrite E1.
    - unfold u_parent_broadcast. destruct (us_parents _ !! p); [|done]. by rewrite E2.
    - unfold u_parent_emit. destruct (us_parents _ !! p); [|done]. by rewrite E2.
  Qed.
  Lemma broadcast_1 n d opts u : (u_broadcast n d opts u).1 = u.1.
  Proof. by rewrite u_broadcast_eq. Qed.
  Lemma orders_state os os' o v : (∀ l, so_parents os l = so_parents os' l) → (u_step csr skip clean (os, o) v).1 = (u_step csr skip clean (os', o) v).1.
  Proof.
    intros E1. set (os2 := SOrds (so_apply os') (so_client os') (so_nsps os') (so_nsock os') (so_parents os') (so_children os)).
    rewrite (orders_effects os os2) by done. unfold u_step. cbn [fst snd]. destruct o; try done.
    - unfold u_parent_broadcast. destruct (us_parents _ !! p) as [q|]; [|done].
      assert (∀ ns d (u : ustate), (foldl (λ acc n, let d := offset_data csr (off n) acc.2 opts in (u_broadcast n d opts acc.1, d)) (u, d) ns).1.1 = u.1) as H.
      { induction ns as [|n ns IH]; intros d u; [done|]. cbn [foldl fst snd]. rewrite IH. apply broadcast_1. }
      by rewrite !H.
    - unfold u_parent_emit. destruct (us_parents _ !! p) as [q|]; [|done]. cbv zeta.
      assert (∀ ns (u : ustate), (foldl (λ u n, u_broadcast n (offset_data csr (off n) data (Some (BOpts (Some ∅) (Some ∅) (Some no_flags)))) (Some (BOpts (Some ∅) (Some ∅) (Some no_flags))) u) u ns).1 = u.1) as H.
      { induction ns as [|n ns IH]; intros u; [done|]. cbn [foldl]. rewrite IH. apply broadcast_1. }
      by rewrite !H.
  Qed.
  Lemma u_run_orders h h' : Forall2 (λ e e', e.2 = e'.2 ∧ ∀ l, so_parents e.1 l = so_parents e'.1 l) h h' → u_run csr skip clean h = u_run csr skip clean h'.
  Proof.
    unfold u_run. generalize u_init. intros v H. revert v. induction H as [|[os o] [os' o'] h h' [Ho E] _ IH]; intros v; [done|]. cbn [foldl]. cbn in Ho, E. subst o'.
    rewrite (orders_state os os' o v E). apply IH.
  Qed.
  Lemma c66_orders_l h h' : Forall2 (λ e e', e.2 = e'.2 ∧ ∀ l, so_parents e.1 l = so_parents e'.1 l) h h' →
    env_ok csr skip clean h → polite csr skip clean h → env_ok csr skip clean h' → polite csr skip clean h' →
    seen (run csr skip clean h).1 = seen (run csr skip clean h').1.
  Proof. intros H ????. rewrite !c66_state_l by done. by apply u_run_orders. Qed.
  Lemma c66_orders_effects_l h h' os os' o : Forall2 (λ e e', e.2 = e'.2 ∧ ∀ l, so_parents e.1 l = so_parents e'.1 l) h h' →
    (∀ l, so_parents os l = so_parents os' l) → (∀ X, so_children os X = so_children os' X) →
    env_ok csr skip clean (h ++ [(os, o)]) → polite csr skip clean (h ++ [(os, o)]) → env_ok csr skip clean (h' ++ [(os', o)]) → polite csr skip clean (h' ++ [(os', o)]) →
    ∃ l l', (run csr skip clean (h ++ [(os, o)])).2 = (run csr skip clean h).2 ++ l ∧ (run csr skip clean (h' ++ [(os', o)])).2 = (run csr skip clean h').2 ++ l' ∧ l.*2 ≡ₚ l'.*2.
  Proof.
    intros H E1 E2 ????. destruct (c66_effects_l h (os, o)) as (l & El & Hl); [done..|]. destruct (c66_effects_l h' (os', o)) as (l' & El' & Hl'); [done..|].
    exists l, l'. split; [done|]. split; [done|]. rewrite Hl, Hl', (u_run_orders h h' H). by rewrite (orders_effects os os').
  Qed.
End steps.
