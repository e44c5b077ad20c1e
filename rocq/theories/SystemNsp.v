(** Namespaces: isolation, creation, removal, parents, shutdown (C24, C34-C37, C45). *)
From Verif Require Import Base GoTypes Rooms RoomsSpec RoomsProofs Adapter AdapterSpec Session System SystemSpec SystemProofs SystemLife SystemPolite SystemClaims.

(** ** Applying a callback to the selected sockets *)
Section fold.
  Context {S A : Type} (get_reg : S → registry) (sockets : S → gmap sid A) (cb : A → S → S) (I : S → Prop).
  Lemma run_cbs_fold l s : local_cb get_reg sockets cb I → I s → NoDup l →
    run_cbs sockets cb l s = foldl (λ s k, cb k s) s (omap (λ i, sockets s !! i) l).
  Proof.
    intros Hloc. revert s. induction l as [|i l IH]; intros s HI Hnd; [done|]. apply NoDup_cons in Hnd as [Hi Hnd]. cbn.
    destruct (sockets s !! i) as [k|] eqn:E; [|by apply IH].
    destruct (Hloc s i k HI E) as [[_ Ha] HI']. rewrite IH by done. cbn. f_equal.
    clear -Ha Hi. induction l as [|j l IH]; [done|]. cbn. rewrite Ha; [|intros ->; apply Hi; apply elem_of_cons; by left].
    rewrite IH; [done|]. intros ?. apply Hi. apply elem_of_cons. by right.
  Qed.
  (** The callback is called once for each socket selected at the beginning. *)
  Lemma apply_fold orm oid oall rooms except s : local_cb get_reg sockets cb I → order_ok orm → (∀ r, order_ok (oid r)) → order_ok oall → I s →
    ∃ ids, NoDup ids ∧ (apply_sockets get_reg sockets cb orm oid oall rooms except s).1 = foldl (λ s k, cb k s) s (omap (λ i, sockets s !! i) ids) ∧
      (∀ id, id ∈ ids ↔ selected (get_reg s) (default ∅ rooms) (default ∅ except) id ∧ is_Some (sockets s !! id)).
  Proof.
    intros Hloc H1 H2 H3 HI. destruct (apply_spec get_reg sockets cb I Hloc orm oid oall rooms except s H1 H2 H3 HI) as (F1 & F2 & F3 & F4).
    eexists. split; [exact F1|]. split; [|exact F4]. rewrite apply_cbs. by apply run_cbs_fold.
  Qed.
End fold.

Section nsp.
  Context (csr skip clean : bool).
  Notation sstep := (step csr skip clean).
  Notation srun := (run csr skip clean).
  Notation envok := (env_ok csr skip clean).
  Notation nice := (polite csr skip clean).
  Notation anyprim := (prim csr clean (λ _ _, True) (λ _ _, True) (λ _, True)).
  Notation cprim := (cprim csr clean).

  (** ** Connected sockets are known to the adapter *)
  Definition invR (x : core) : Prop := ∀ k a, c_socks x !! k = Some a → sk_connected a = true → is_Some (rg_sids (reg_of x (sk_nsp a)) !! sk_id a).
  Lemma reg_of_alter f n x n' : reg_of (set_nsps (alter f n (c_nsps x)) x) n' = if decide (n' = n) then match c_nsps x !! n with Some np => np_reg (f np) | None => empty_registry end else reg_of x n'.
  Proof. unfold reg_of. cbn. rewrite alter_lookup. case_decide; [subst|done]. by destruct (c_nsps x !! n). Qed.
  Lemma invR_same x y : c_socks y = c_socks x → (∀ n, n < length (c_nsps x) → reg_of y n = reg_of x n) → invA x → invR x → invR y.
  Proof. intros E1 E2 A R k a. rewrite E1. intros Ek Ec. rewrite E2; [by eapply R|]. by eapply (ia_wf _ A). Qed.
  Lemma reg_app np x y n : c_nsps y = c_nsps x ++ [np] → n < length (c_nsps x) → reg_of y n = reg_of x n.
  Proof. intros E Hn. unfold reg_of. by rewrite E, lookup_app_l. Qed.
  Lemma run_R h : envok h → nice h → invR (srun h).1.
  Proof.
    intros He Hn. revert h He Hn. apply (run_inv_PC csr skip clean (λ s, invR s.1)).
    { by intros k a. }
    intros s s' P PC PC' R. pose proof (pc_a _ PC) as A. pose proof PC as [_ _ Pp _]. destruct P;
      try (by (eapply invR_same; [| |exact A|exact R]; [done|intros; done])).
    - destruct H; try (by (eapply invR_same; [| |exact A|exact R]; [done|intros; done])).
      intros j b. rewrite (onclose_socks csr clean _ _ _ a) by done. rewrite alter_lookup. case_decide; [subst; rewrite H1; by intros [= <-]|].
      intros Ej Ec. unfold reg_of. rewrite (onclose_nsps csr clean _ _ _ a) by done. rewrite alter_lookup.
      pose proof (R j b Ej Ec) as Rj. unfold reg_of in Rj. case_decide; [|done]. destruct (c_nsps s.1 !! sk_nsp b); [|done]. cbn.
      rewrite del_all_sids, lookup_delete_ne; [done|]. destruct (Pp k j a b) as [? _]; try done; by eapply (ia_live _ A).
    - intros j b. rewrite join_socks. intros Ej Ec. pose proof (R j b Ej Ec) as Rj. unfold join. destruct (c_socks s.1 !! k) as [a|]; [|done].
      destruct (sk_can_join a); [|done]. cbn. rewrite reg_of_alter. case_decide as Hd; [|done]. unfold reg_of in Rj. rewrite Hd in Rj.
      destruct (c_nsps s.1 !! sk_nsp a); [|done]. cbn. apply add_all_known. by left.
    - intros j b. rewrite leave_socks. intros Ej Ec. pose proof (R j b Ej Ec) as Rj. unfold leave. destruct (c_socks s.1 !! k) as [a|]; [|done].
      cbn. rewrite reg_of_alter. case_decide as Hd; [|done]. unfold reg_of in Rj. rewrite Hd in Rj.
      destruct (c_nsps s.1 !! sk_nsp a); [|done]. cbn. by apply del_known.
    - intros j b. cbn. intros [Ej|[_ Ej]]%lookup_app_Some; [by intros; eapply R|]. apply list_lookup_singleton_Some in Ej as [_ <-]. congruence.
    - rewrite (do_connect_eq _ a) by done. cbn [fst]. intros j b. cbn. rewrite alter_lookup. intros Ej Ec.
      destruct (ia_wf _ A k a H) as [[np Hnp]%lookup_lt_is_Some _].
      change (reg_of (conn2 a k s.1) (sk_nsp b)) with (reg_of (set_nsps (alter (enter a k) (sk_nsp a) (c_nsps s.1)) s.1) (sk_nsp b)). rewrite reg_of_alter.
      case_decide.
      + subst j. rewrite H in Ej. injection Ej as <-. cbn. rewrite decide_True, Hnp by done. cbn. apply add_all_known. by right.
      + pose proof (R j b Ej Ec) as Rj. case_decide as Hd; [|done]. rewrite Hd in Rj. unfold reg_of in Rj. rewrite Hnp in *. cbn. apply add_all_known. by left.
    - intros j b. rewrite cleanup_socks, alter_lookup. case_decide.
      { subst. rewrite H0. intros [= <-]. cbn. congruence. }
      intros Ej Ec. pose proof (R j b Ej Ec) as Rj. unfold reg_of in *. rewrite (cleanup_nsps _ _ _ a) by done. rewrite alter_lookup.
      case_decide; [|done]. destruct (c_nsps s.1 !! sk_nsp b); [|done]. cbn.
      rewrite del_all_sids, lookup_delete_ne; [done|]. destruct (Pp k j a b) as [? _]; try done; by eapply (ia_live _ A).
    - eapply invR_same; [..|exact A|exact R]; [done|]. intros n' Hn'. by eapply (reg_app (Nspc name None empty_registry ∅ [] [])).
    - eapply invR_same; [..|exact A|exact R]; [apply create_child_socks|]. intros n' Hn'. unfold create_child. rewrite H1.
      by eapply (reg_app (Nspc name (Some p) empty_registry ∅ (pa_on q) (pa_fns q))).
    - eapply invR_same; [..|exact A|exact R]; [done|]. intros. cbn. by apply reg_alter.
    - eapply invR_same; [..|exact A|exact R]; [done|]. intros. cbn. by apply reg_alter.
  Qed.

  (** ** Operations on the selected sockets of a namespace (C24) *)
  Notation loc n := (λ cb, local_cb (λ s : sys, reg_of s.1 n) (λ s : sys, socks_of s.1 n) cb (λ s, invA s.1)).
  Notation agrees n := (agree (λ s : sys, reg_of s.1 n) (λ s : sys, socks_of s.1 n)).
  Lemma put_core p k s : (put p k s).1 = s.1.
  Proof. unfold put. by destruct (c_socks s.1 !! k). Qed.
  Lemma put_loc n p : loc n (put p).
  Proof. intros s id k A E. unfold agree. rewrite put_core. done. Qed.
  Lemma join_loc n rs : loc n (λ k s, join k rs s).
  Proof.
    intros s id k A E. split; [|by apply invA_join]. destruct (ia_nsock _ A n id k E) as (a & Ek & <- & Hn & _).
    unfold join. rewrite Ek. destruct (sk_can_join a); [|by apply agree_refl]. split.
    - intros i r Hi. cbn. rewrite reg_of_alter, Hn, decide_True by done. unfold reg_of.
      destruct (c_nsps s.1 !! n); [|done]. cbn. rewrite add_all_members. naive_solver.
    - intros i _. cbn. by rewrite socks_alter.
  Qed.
  Lemma leave_agrees n k a r s : c_socks s.1 !! k = Some a → sk_nsp a = n → agrees n (λ i, i = sk_id a) s (leave k r s).
  Proof.
    intros Ek Hn. unfold leave. rewrite Ek. split.
    - intros i r' Hi. cbn. rewrite reg_of_alter, Hn, decide_True by done. unfold reg_of.
      destruct (c_nsps s.1 !! n); [|done]. cbn. rewrite del_members. naive_solver.
    - intros i _. cbn. by rewrite socks_alter.
  Qed.
  Lemma leaves_loc n rs : loc n (λ k s, foldl (λ s r, leave k r s) s rs).
  Proof.
    intros s id k A E. destruct (ia_nsock _ A n id k E) as (a & Ek & <- & Hn & _). clear E. revert s A Ek.
    induction rs as [|r rs IH]; intros s A Ek; [split; [apply agree_refl|done]|]. cbn.
    destruct (IH (leave k r s)) as [H1 H2]; [by apply invA_leave|by rewrite leave_socks|]. split; [|done].
    eapply agree_weaken; [|eapply agree_trans; [by apply (leave_agrees n k a)|exact H1]]. by intros ? [?|?].
  Qed.
  Lemma onclose_agrees n os reason k a s : sords_ok os → invA s.1 → c_socks s.1 !! k = Some a → sk_nsp a = n →
    agrees n (λ i, i = sk_id a) s (onclose csr clean os reason k s).
  Proof.
    intros Hos A Ek Hn. destruct (sk_connected a) eqn:Ec; [|unfold onclose; rewrite Ek, Ec; apply agree_refl].
    pose proof (onclose_nsps csr clean os reason k a s Ek Ec) as E. destruct Hos as ((_ & _ & _ & Hos) & _).
    split; unfold reg_of, socks_of; cbv beta; rewrite E, alter_lookup, Hn, decide_True by done.
    - intros i r Hi. destruct (c_nsps s.1 !! n) as [np|] eqn:En; [|done]. cbn.
      rewrite del_all_members; [naive_solver|apply Hos|]. pose proof (ia_reg _ A n) as Hr. unfold reg_of in Hr. by rewrite En in Hr.
    - intros i Hi. destruct (c_nsps s.1 !! n) as [np|]; [|done]. cbn. by rewrite lookup_delete_ne.
  Qed.
  Lemma disconnect_loc n os : sords_ok os → loc n (disconnect_st csr clean os false).
  Proof.
    intros Hos s id k A E. destruct (ia_nsock _ A n id k E) as (a & Ek & <- & Hn & Hc). unfold disconnect_st, disconnect. rewrite Ek, Hc.
    set (s1 := sock_packet k DISCONNECT [] s). assert (s1.1 = s.1) as E1 by apply sock_packet_core. split.
    - eapply agree_weaken; [|eapply (agree_trans _ _ _ _ s s1)]; [|split; cbv beta; by rewrite E1|apply (onclose_agrees n _ _ _ a); try done; by rewrite E1].
      by intros ? [?|?].
    - eapply (invA_crtc csr clean (λ _ _, True)); [by apply onclose_prims|by rewrite E1].
  Qed.

  Lemma omap_socks_NoDup x n ids : invA x → NoDup ids → NoDup (omap (λ i, socks_of x n !! i) ids).
  Proof.
    intros A. induction ids as [|i ids IH]; intros Hnd; [constructor|]. apply NoDup_cons in Hnd as [Hi Hnd]. cbn.
    destruct (socks_of x n !! i) as [k|] eqn:E; [|by apply IH]. apply NoDup_cons. split; [|by apply IH].
    intros (j & Hj & Ej)%elem_of_list_omap. destruct (ia_nsock _ A _ _ _ E) as (a & Ea & Hia & _).
    destruct (ia_nsock _ A _ _ _ Ej) as (b & Eb & Hib & _). assert (a = b) as <- by congruence. by subst.
  Qed.
  Definition opts_rooms (opts : option bopts) : option (gset room) := match opts with Some o => bo_rooms o | None => Some ∅ end.
  Definition opts_except (opts : option bopts) : option (gset room) := match opts with Some o => bo_except o | None => Some ∅ end.
  Lemma opts_rooms_eq opts : default ∅ (opts_rooms opts) = opt_rooms opts.
  Proof. by destruct opts. Qed.
  Lemma opts_except_eq opts : default ∅ (opts_except opts) = opt_except opts.
  Proof. by destruct opts. Qed.
  (** The sockets selected are the targets. *)
  Lemma selected_target x n opts id k : invA x → socks_of x n !! id = Some k → selected (reg_of x n) (opt_rooms opts) (opt_except opts) id → target x n opts k.
  Proof.
    intros A E [S1 S2]. destruct (ia_nsock _ A _ _ _ E) as (a & Ea & <- & Hn & Hc). destruct (ia_reg _ A n) as [R _].
    exists a. split; [done|]. split; [done|]. split; [done|]. unfold rooms_sock. rewrite Ea, Hn. split.
    - case_decide; [by left|]. right. destruct S1 as (r & Hr & Hm). exists r. split; [done|]. by apply R.
    - intros (r & Hr & Hm). apply S2. exists r. split; [done|]. by apply R.
  Qed.
  Lemma target_selected x n opts k : invA x → invC x → invR x → target x n opts k →
    ∃ id, socks_of x n !! id = Some k ∧ selected (reg_of x n) (opt_rooms opts) (opt_except opts) id.
  Proof.
    intros A C R (a & Ea & Hc & <- & H1 & H2). exists (sk_id a). destruct (C k a Ea Hc) as (E & _). split; [done|]. destruct (ia_reg _ A (sk_nsp a)) as [Rg _].
    unfold rooms_sock in *. rewrite Ea in *. split.
    - case_decide as Hd; [by apply (R k a)|]. destruct H1 as [?|(r & Hr & Hm)]; [done|]. exists r. split; [done|]. by apply Rg.
    - intros (r & Hr & Hm). apply H2. exists r. split; [done|]. by apply Rg.
  Qed.
  Lemma apply_nsp_fold os n cb opts s : loc n cb → sords_ok os → invA s.1 →
    ∃ ks, NoDup ks ∧ apply_nsp os n cb opts s = foldl (λ s k, cb k s) s ks ∧ (∀ k, k ∈ ks → target s.1 n opts k) ∧
      (invC s.1 → invR s.1 → ∀ k, target s.1 n opts k → k ∈ ks).
  Proof.
    intros L ((O1 & O2 & O3 & _) & _) A.
    destruct (apply_fold _ _ cb _ (o_rooms (so_apply os)) (o_ids (so_apply os)) (o_sids (so_apply os)) (opts_rooms opts) (opts_except opts) s L O1 O2 O3 A) as (ids & Hnd & E & Hi).
    rewrite opts_rooms_eq, opts_except_eq in Hi. exists (omap (λ i, socks_of s.1 n !! i) ids). split; [by apply omap_socks_NoDup|]. split; [exact E|]. split.
    - intros k (i & Hin & Ei)%elem_of_list_omap. apply Hi in Hin as [Hs _]. by eapply selected_target.
    - intros C R k Ht. destruct (target_selected _ _ _ _ A C R Ht) as (i & Ei & Hs). apply elem_of_list_omap. exists i. split; [|done]. apply Hi. eauto.
  Qed.
  Lemma fetch_fold os n opts s : sords_ok os → invA s.1 → NoDup (fetch os n opts s) ∧ (∀ k, k ∈ fetch os n opts s → target s.1 n opts k) ∧
      (invC s.1 → invR s.1 → ∀ k, target s.1 n opts k → k ∈ fetch os n opts s).
  Proof.
    intros ((O1 & O2 & O3 & _) & _) A.
    assert (local_cb (λ t : sys * list nat, reg_of t.1.1 n) (λ t : sys * list nat, socks_of t.1.1 n) (λ k t, (t.1, t.2 ++ [k])) (λ t, invA t.1.1)) as L by done.
    destruct (apply_fold _ _ _ _ (o_rooms (so_apply os)) (o_ids (so_apply os)) (o_sids (so_apply os)) (opts_rooms opts) (opts_except opts) (s, []) L O1 O2 O3 A) as (ids & Hnd & E & Hi).
    rewrite opts_rooms_eq, opts_except_eq in Hi. cbn [fst] in Hi. set (ks := omap (λ i, socks_of s.1 n !! i) ids) in *.
    assert (∀ l (t : sys * list nat), foldl (λ t k, (t.1, t.2 ++ [k])) t l = (t.1, t.2 ++ l)) as Hf.
    { induction l as [|k l IH]; intros [t1 t2]; cbn; [by rewrite app_nil_r|]. rewrite IH. cbn. by rewrite <- app_assoc. }
    assert (fetch os n opts s = ks) as ->. { apply (f_equal snd) in E. rewrite Hf in E. exact E. }
    split; [by apply omap_socks_NoDup|]. split.
    - intros k (i & Hin & Ei)%elem_of_list_omap. apply Hi in Hin as [Hs _]. by eapply selected_target.
    - intros C R k Ht. destruct (target_selected _ _ _ _ A C R Ht) as (i & Ei & Hs). apply elem_of_list_omap. exists i. split; [|done]. apply Hi. eauto.
  Qed.

  Lemma puts p ks s : foldl (λ s k, put p k s) s ks = (s.1, s.2 ++ omap (λ k, (λ a, (s.1, EWrite (sk_client a) p)) <$> c_socks s.1 !! k) ks).
  Proof.
    revert s. induction ks as [|k ks IH]; intros s; cbn; [by rewrite app_nil_r; destruct s|]. rewrite IH, put_core. f_equal.
    unfold put. destruct (c_socks s.1 !! k); cbn; [by rewrite <- app_assoc|done].
  Qed.
  Lemma broadcast_delivered os n data opts s : sords_ok os → invA s.1 → invC s.1 → invR s.1 →
    ∃ ks, NoDup ks ∧ (∀ k, k ∈ ks ↔ target s.1 n opts k) ∧ delivered s (broadcast os n EVENT data opts s) ks (Packet EVENT (name_of s.1 n) data None).
  Proof.
    intros Hos A C R. unfold broadcast. destruct (apply_nsp_fold os n (put (Packet EVENT (name_of s.1 n) data None)) opts s (put_loc _ _) Hos A) as (ks & Hnd & E & H1 & H2).
    exists ks. split; [done|]. split; [naive_solver|]. rewrite E, puts. done.
  Qed.

  (** Isolation *)
  Record iso (n : nat) (K : nat → Prop) (s s' : sys) : Prop := {
    is_iso : isolated s s' n K; is_a : invA s.1 → invA s'.1; is_g : grows (c_socks s.1) (c_socks s'.1);
    is_len : length (c_socks s'.1) = length (c_socks s.1); is_name : name_of s'.1 n = name_of s.1 n }.
  Lemma iso_refl n (K : nat → Prop) (s : sys) : (∀ k a, K k → c_socks s.1 !! k = Some a → sk_nsp a = n) → iso n K s s.
  Proof. intros HK. split; try done; [|apply grows_refl]. split; try done. exists []. split; [by rewrite app_nil_r|]. by intros ? ? ?%elem_of_nil. Qed.
  Lemma grows_back l l' k b : grows l l' → length l' = length l → l' !! k = Some b → ∃ a, l !! k = Some a ∧ later a b.
  Proof.
    intros Hg Hl Hb. apply lookup_lt_Some in Hb as Hlt. rewrite Hl in Hlt. apply lookup_lt_is_Some in Hlt as [a Ha].
    destruct (Hg _ _ Ha) as (b' & Hb' & La). exists a. split; [done|]. congruence.
  Qed.
  Lemma iso_trans n K s1 s2 s3 : iso n K s1 s2 → iso n K s2 s3 → iso n K s1 s3.
  Proof.
    intros [[A1 A2 A3 (l1 & A4 & A5)] A A6 A7 A8] [[B1 B2 B3 (l2 & B4 & B5)] B B6 B7 B8]. split; [|by auto|by eapply grows_trans|congruence|congruence].
    split.
    - intros m Hm. rewrite B1, A1 by done. done.
    - intros k Hk. rewrite B2, A2 by done. done.
    - done.
    - exists (l1 ++ l2). split; [by rewrite B4, A4, app_assoc|]. intros x e [He|He]%elem_of_app; [by eapply A5|].
      apply B5 in He. rewrite A8 in He. destruct e; try done. destruct He as (Hp & k & a & Hk & Ea & Hc). split; [done|].
      destruct (grows_back _ _ _ _ A6 A7 Ea) as (b & Eb & [_ _ La _ _ _]). exists k, b. split; [done|]. split; [done|]. congruence.
  Qed.
  Lemma iso_fold n (K : nat → Prop) cb ks (s : sys) : (∀ k a, K k → c_socks s.1 !! k = Some a → sk_nsp a = n) → invA s.1 →
    (∀ k s, K k → invA s.1 → (∀ k a, K k → c_socks s.1 !! k = Some a → sk_nsp a = n) → iso n K s (cb k s)) →
    (∀ k, k ∈ ks → K k) → iso n K s (foldl (λ s k, cb k s) s ks).
  Proof.
    intros HK A Hcb. revert s HK A. induction ks as [|k ks IH]; intros s HK A Hks; [by apply iso_refl|]. cbn.
    assert (iso n K s (cb k s)) as I1. { apply Hcb; try done. apply Hks, elem_of_cons. by left. }
    eapply iso_trans; [exact I1|]. apply IH.
    - intros j b Hj Eb. destruct (grows_back _ _ _ _ (is_g _ _ _ _ I1) (is_len _ _ _ _ I1) Eb) as (a & Ea & La). rewrite (la_nsp _ _ La). by eapply HK.
    - by apply (is_a _ _ _ _ I1).
    - intros j Hj. apply Hks, elem_of_cons. by right.
  Qed.
  Lemma iso_log n (K : nat → Prop) s e : (∀ k a, K k → c_socks s.1 !! k = Some a → sk_nsp a = n) → about s.1 (name_of s.1 n) K e → iso n K s (log e s).
  Proof.
    intros HK He. split; try done; [|apply grows_refl]. split; try done. exists [(s.1, e)]. split; [done|]. by intros ? ? [= -> ->]%elem_of_list_singleton.
  Qed.
  Lemma iso_reg n (K : nat → Prop) s f : (∀ k a, K k → c_socks s.1 !! k = Some a → sk_nsp a = n) → (invA s.1 → invA (upd_nsp n (λ np, np_set_reg (f np) np) s).1) →
    iso n K s (upd_nsp n (λ np, np_set_reg (f np) np) s).
  Proof.
    intros HK HA. split; try done; [|apply grows_refl|].
    - split; try done.
      + intros m Hm. cbn. by rewrite list_lookup_alter_ne.
      + exists []. split; [by rewrite app_nil_r|]. by intros ? ? ?%elem_of_nil.
    - unfold name_of. cbn. rewrite list_lookup_alter. by destruct (c_nsps s.1 !! n).
  Qed.
  Lemma put_iso n (K : nat → Prop) data k s : K k → (∀ k a, K k → c_socks s.1 !! k = Some a → sk_nsp a = n) → iso n K s (put (Packet EVENT (name_of s.1 n) data None) k s).
  Proof.
    intros Hk HK. unfold put. destruct (c_socks s.1 !! k) as [a|] eqn:Ea; [|by apply iso_refl]. apply iso_log; [done|]. split; [done|]. eauto 6.
  Qed.
  Lemma packet_iso n (K : nat → Prop) ty data k s : K k → (∀ k a, K k → c_socks s.1 !! k = Some a → sk_nsp a = n) → iso n K s (sock_packet k ty data s).
  Proof.
    intros Hk HK. unfold sock_packet, write. destruct (c_socks s.1 !! k) as [a|] eqn:Ea; [|by apply iso_refl].
    destruct (is_open s.1 (sk_client a)); [|by apply iso_refl]. apply iso_log; [done|]. split; [|by eauto 6]. cbn. f_equal. by eapply HK.
  Qed.
  Lemma join_iso n (K : nat → Prop) rs k s : K k → (∀ k a, K k → c_socks s.1 !! k = Some a → sk_nsp a = n) → iso n K s (join k rs s).
  Proof.
    intros Hk HK. unfold join. destruct (c_socks s.1 !! k) as [a|] eqn:Ea; [|by apply iso_refl]. destruct (sk_can_join a) eqn:Ej; [|by apply iso_refl].
    rewrite (HK _ _ Hk Ea). apply iso_reg; [done|]. intros A. pose proof (invA_join k rs s A) as H9. unfold join in H9. by rewrite Ea, Ej, (HK _ _ Hk Ea) in H9.
  Qed.
  Lemma leave_iso n (K : nat → Prop) r k s : K k → (∀ k a, K k → c_socks s.1 !! k = Some a → sk_nsp a = n) → iso n K s (leave k r s).
  Proof.
    intros Hk HK. unfold leave. destruct (c_socks s.1 !! k) as [a|] eqn:Ea; [|by apply iso_refl].
    rewrite (HK _ _ Hk Ea). apply iso_reg; [done|]. intros A. pose proof (invA_leave k r s A) as H9. unfold leave in H9. by rewrite Ea, (HK _ _ Hk Ea) in H9.
  Qed.
  Lemma leaves_iso n (K : nat → Prop) rs k s : K k → (∀ k a, K k → c_socks s.1 !! k = Some a → sk_nsp a = n) → iso n K s (foldl (λ s r, leave k r s) s rs).
  Proof.
    intros Hk. revert s. induction rs as [|r rs IH]; intros s HK; [by apply iso_refl|]. cbn. eapply iso_trans; [by apply leave_iso|]. apply IH.
    intros j b Hj. rewrite leave_socks. by apply HK.
  Qed.
  Lemma onclose_iso n (K : nat → Prop) os r k s : sords_ok os → invA s.1 → K k → (∀ k a, K k → c_socks s.1 !! k = Some a → sk_nsp a = n) → iso n K s (onclose csr clean os r k s).
  Proof.
    intros Hos A Hk HK. destruct (c_socks s.1 !! k) as [a|] eqn:Ea; [destruct (sk_connected a) eqn:Ec|].
    2:{ unfold onclose. rewrite Ea, Ec. by apply iso_refl. }
    2:{ unfold onclose. rewrite Ea. by apply iso_refl. }
    pose proof (onclose_socks csr clean os r k a s Ea Ec) as E1. pose proof (onclose_nsps csr clean os r k a s Ea Ec) as E2.
    pose proof (onclose_log csr clean os r k a s Ea Ec) as E3. split.
    - split.
      + intros m Hm. rewrite E2, list_lookup_alter_ne; [done|]. rewrite (HK _ _ Hk Ea). done.
      + intros j Hj. rewrite E1, list_lookup_alter_ne; [done|]. by intros ->.
      + done.
      + eexists. split; [exact E3|]. intros x e [He|[= -> ->]%elem_of_list_singleton]%elem_of_app; [|done]. unfold close_logs in He.
        apply elem_of_cons in He as [[= -> ->]|He]; [done|]. destruct (csr && _); [|by apply elem_of_nil in He]. by apply elem_of_list_singleton in He as [= -> ->].
    - intros _. eapply (invA_crtc csr clean (λ _ _, True)); [by apply onclose_prims|done].
    - rewrite E1. eapply grows_alter; [done|]. split; try done. intros. congruence.
    - rewrite E1. apply alter_length.
    - unfold name_of. rewrite E2, (HK _ _ Hk Ea), list_lookup_alter. by destruct (c_nsps s.1 !! n).
  Qed.
  Lemma disconnect_iso n (K : nat → Prop) os k s : sords_ok os → invA s.1 → K k → (∀ k a, K k → c_socks s.1 !! k = Some a → sk_nsp a = n) → iso n K s (disconnect_st csr clean os false k s).
  Proof.
    intros Hos A Hk HK. unfold disconnect_st, disconnect. destruct (c_socks s.1 !! k) as [a|] eqn:Ea; [|by apply iso_refl].
    destruct (sk_connected a); [|by apply iso_refl]. eapply iso_trans; [by apply (packet_iso n K DISCONNECT [] k)|].
    apply onclose_iso; try done; by rewrite sock_packet_core.
  Qed.
  Lemma target_mine x n opts k a : target x n opts k → c_socks x !! k = Some a → sk_nsp a = n.
  Proof. intros (b & Eb & _ & Hn & _) Ea. congruence. Qed.
  Lemma broadcast_iso os n (K : nat → Prop) data opts s : sords_ok os → invA s.1 → (∀ k a, K k → c_socks s.1 !! k = Some a → sk_nsp a = n) → (∀ k, target s.1 n opts k → K k) →
    iso n K s (broadcast os n EVENT data opts s).
  Proof.
    intros Hos A HK Ht. unfold broadcast.
    destruct (apply_nsp_fold os n (put (Packet EVENT (name_of s.1 n) data None)) opts s (put_loc _ _) Hos A) as (ks & _ & -> & H1 & _).
    assert (∀ k, k ∈ ks → K k) as Hks by auto. clear H1 Ht. assert (∃ m, name_of s.1 n = m) as [m Em] by eauto. rewrite Em.
    revert s A Em HK. induction ks as [|k ks IH]; intros s A Em HK; [by apply iso_refl|]. cbn.
    eapply iso_trans; [rewrite <- Em; apply put_iso; [apply Hks, elem_of_cons; by left|done]|]. rewrite Em. apply IH; rewrite ?put_core; try done.
    intros j Hj. apply Hks, elem_of_cons. by right.
  Qed.
  Lemma c24_isolated_l h e n K : envok (h ++ [e]) → scoped (srun h).1 e.2 n K → isolated (srun h) (srun (h ++ [e])) n K.
  Proof.
    intros [He Ho]%env_snoc Hs. destruct (run_B csr skip clean h He) as [A _]. rewrite run_snoc. apply is_iso. set (s := srun h) in *.
    destruct e as [os o]. destruct Ho as [Hos Ho]. cbn [fst snd] in *. destruct Hs; cbn.
    - apply broadcast_iso; try done. intros k a. apply target_mine.
    - destruct (apply_nsp_fold os n (λ k s, join k rs s) opts s (join_loc _ _) Hos A) as (ks & _ & -> & H1 & _).
      apply iso_fold; try done; [intros k a; apply target_mine|]. intros. by apply join_iso.
    - destruct (apply_nsp_fold os n (λ k s, foldl (λ s r, leave k r s) s rs) opts s (leaves_loc _ _) Hos A) as (ks & _ & -> & H1 & _).
      apply (iso_fold n _ (λ k s, foldl (λ s r, leave k r s) s rs)); try done; [intros k a; apply target_mine|]. intros. by apply leaves_iso.
    - destruct (apply_nsp_fold os n (disconnect_st csr clean os false) opts s (disconnect_loc _ _ Hos) Hos A) as (ks & _ & -> & H1 & _).
      apply iso_fold; try done; [intros k a; apply target_mine|]. intros. by apply disconnect_iso.
    - unfold emit. rewrite H. destruct csr.
      + apply broadcast_iso; try done; [|by right]. intros j b [->|Hj] Eb; [congruence|by eapply target_mine].
      + apply packet_iso; [by left|]. intros j b [->|Hj] Eb; [congruence|by eapply target_mine].
    - apply join_iso; [done|]. intros j b -> Eb. congruence.
    - apply leave_iso; [done|]. intros j b -> Eb. congruence.
    - apply disconnect_iso; try done. intros j b -> Eb. congruence.
  Qed.
  Lemma offset_stamped off data opts : stamped csr data opts off (offset_data csr off data opts).
  Proof.
    unfold stamped, offset_data, storable, volatile_opts. cbn. destruct csr; cbn; [|split; [intros [? _]; done|done]].
    destruct opts as [[r x [f|]]|]; cbn; [destruct (fl_volatile f) eqn:E; cbn|..]; (split; [intros [_ H]|intros [H|(o & f0 & [= <-] & Hf & Hv)]]); try done.
    - destruct H. eexists _, f. done.
    - injection Hf as <-. congruence.
  Qed.
  Lemma c24_broadcast_l h os n data off opts : envok (h ++ [(os, OBroadcast n data off opts)]) → nice h →
    ∃ ks d, NoDup ks ∧ (∀ k, k ∈ ks ↔ target (srun h).1 n opts k) ∧ stamped csr data opts off d ∧
      delivered (srun h) (srun (h ++ [(os, OBroadcast n data off opts)])) ks (Packet EVENT (name_of (srun h).1 n) d None).
  Proof.
    intros [He [Hos _]]%env_snoc Hn. destruct (run_PC csr skip clean h He Hn) as [A _ _ C]. rewrite run_snoc. cbn.
    destruct (broadcast_delivered os n (offset_data csr off data opts) opts (srun h)) as (ks & H1 & H2 & H3); try done; [by apply run_R|].
    exists ks, (offset_data csr off data opts). split_and!; [done|done|apply offset_stamped|done].
  Qed.
  Lemma c24_fetch_l h os n opts : envok h → nice h → sords_ok os →
    NoDup (fetch os n opts (srun h)) ∧ ∀ k, k ∈ fetch os n opts (srun h) ↔ target (srun h).1 n opts k.
  Proof.
    intros He Hn Hos. destruct (run_PC csr skip clean h He Hn) as [A _ _ C]. destruct (fetch_fold os n opts (srun h) Hos A) as (F1 & F2 & F3).
    split; [done|]. intros k. split; [apply F2|apply F3; [done|by apply run_R]].
  Qed.
End nsp.
