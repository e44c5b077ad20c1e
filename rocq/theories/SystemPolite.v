(** Well-behaved environments: the tables are complete (C21, C23, C26). *)
From Verif Require Import Base GoTypes Rooms RoomsSpec RoomsProofs Adapter Session System SystemSpec SystemProofs SystemLife.

Lemma rtc_mid {A} (R : A → A → Prop) (P : A → Prop) s s' : rtc R s s' → P s →
  (∀ x y, rtc R s x → R x y → rtc R y s' → P x → P y) → P s'.
Proof.
  intros H. revert P. induction H as [|x y z H1 H2 IH]; intros P Hx Hstep; [done|].
  apply IH.
  - by apply (Hstep x y).
  - intros u v Hu Huv Hv. apply Hstep; [|done..]. by eapply rtc_l.
Qed.

Section polite.
  Context (csr skip clean : bool).
  Notation sstep := (step csr skip clean).
  Notation srun := (run csr skip clean).
  Notation envok := (env_ok csr skip clean).
  Notation nice := (polite csr skip clean).
  Notation anyprim := (prim csr clean (λ _ _, True) (λ _ _, True) (λ _, True)).

  (** Open sockets have different ids, and different clients or namespaces. *)
  Definition invP (x : core) : Prop := ∀ j k a b, j ≠ k → c_socks x !! j = Some a → c_socks x !! k = Some b →
    sk_can_join a = true → sk_can_join b = true →
    sk_id a ≠ sk_id b ∧ ¬ (sk_client a = sk_client b ∧ name_of x (sk_nsp a) = name_of x (sk_nsp b)).
  (** Connected sockets are in the three tables. *)
  Definition invC (x : core) : Prop := ∀ k a, c_socks x !! k = Some a → sk_connected a = true →
    socks_of x (sk_nsp a) !! sk_id a = Some k ∧ csocks_of x (sk_client a) !! sk_id a = Some k ∧
    cnsps_of x (sk_client a) !! name_of x (sk_nsp a) = Some k.
  Record invPC (x : core) : Prop := { pc_a : invA x; pc_i : ids_ok x; pc_p : invP x; pc_c : invC x }.

  Lemma invP_old x y : invA x → nsps_grow (c_nsps x) (c_nsps y) → length (c_socks y) = length (c_socks x) → grows (c_socks x) (c_socks y) → invP x → invP y.
  Proof.
    intros A Hn Hl Hg P j k a b Hjk Hj Hk Ha Hb.
    assert (∃ a0, c_socks x !! j = Some a0 ∧ later a0 a) as (a0 & Hj0 & La).
    { apply lookup_lt_Some in Hj as Hlt. rewrite Hl in Hlt. apply lookup_lt_is_Some in Hlt as [a0 H0]. destruct (Hg _ _ H0) as (a1 & H1 & L). rewrite Hj in H1. injection H1 as <-. eauto. }
    assert (∃ b0, c_socks x !! k = Some b0 ∧ later b0 b) as (b0 & Hk0 & Lb).
    { apply lookup_lt_Some in Hk as Hlt. rewrite Hl in Hlt. apply lookup_lt_is_Some in Hlt as [a1 H0]. destruct (Hg _ _ H0) as (a2 & H1 & L). rewrite Hk in H1. injection H1 as <-. eauto. }
    rewrite (la_nsp _ _ La), (la_nsp _ _ Lb), (la_client _ _ La), (la_client _ _ Lb), (la_id _ _ La), (la_id _ _ Lb).
    rewrite (name_sock _ _ _ _ A Hn Hj0), (name_sock _ _ _ _ A Hn Hk0).
    apply (P j k); try done.
    - by apply (la_open _ _ La).
    - by apply (la_open _ _ Lb).
  Qed.
  Lemma ids_old x y : invA x → nsps_grow (c_nsps x) (c_nsps y) → length (c_socks y) = length (c_socks x) → grows (c_socks x) (c_socks y) → ids_ok x → ids_ok y.
  Proof.
    intros A Hn Hl Hg P j k a b Hj Hk.
    assert (∃ a0, c_socks x !! j = Some a0 ∧ later a0 a) as (a0 & Hj0 & La).
    { apply lookup_lt_Some in Hj as Hlt. rewrite Hl in Hlt. apply lookup_lt_is_Some in Hlt as [a0 H0]. destruct (Hg _ _ H0) as (a1 & H1 & L). rewrite Hj in H1. injection H1 as <-. eauto. }
    assert (∃ b0, c_socks x !! k = Some b0 ∧ later b0 b) as (b0 & Hk0 & Lb).
    { apply lookup_lt_Some in Hk as Hlt. rewrite Hl in Hlt. apply lookup_lt_is_Some in Hlt as [a1 H0]. destruct (Hg _ _ H0) as (a2 & H1 & L). rewrite Hk in H1. injection H1 as <-. eauto. }
    rewrite (la_nsp _ _ La), (la_nsp _ _ Lb), (la_id _ _ La), (la_id _ _ Lb).
    rewrite (name_sock _ _ _ _ A Hn Hj0), (name_sock _ _ _ _ A Hn Hk0). by apply (P j k).
  Qed.
  (** A newcomer that fits. *)
  Definition fits (x : core) (nm : nat → string) (a : sock) : Prop := ∀ j b, c_socks x !! j = Some b →
    (sk_id b = sk_id a → sk_can_join b = false ∧ nm (sk_nsp b) = nm (sk_nsp a)) ∧
    ¬ (sk_can_join b = true ∧ sk_client b = sk_client a ∧ nm (sk_nsp b) = nm (sk_nsp a)).

  Lemma invC_frame x y : invA x → (∀ n, socks_of y n = socks_of x n) → (∀ c, cnsps_of y c = cnsps_of x c) → (∀ c, csocks_of y c = csocks_of x c) →
    (∀ k a, c_socks y !! k = Some a → sk_connected a = true → c_socks x !! k = Some a) → nsps_grow (c_nsps x) (c_nsps y) →
    invC x → invC y.
  Proof.
    intros A E0 E1 E2 E3 E4 N k a Hk Hc. apply E3 in Hk; [|done]. rewrite E0, E1, E2, (name_sock _ _ _ _ A E4 Hk). by apply N.
  Qed.
  Lemma socks_app np x y : np_sockets np = ∅ → c_nsps y = c_nsps x ++ [np] → ∀ n, socks_of y n = socks_of x n.
  Proof.
    intros E Hy n. unfold socks_of. rewrite Hy. destruct (decide (n < length (c_nsps x))); [by rewrite lookup_app_l|].
    rewrite lookup_app_r, (lookup_ge_None_2 (c_nsps x)) by lia. destruct (n - _) as [|[]]; done.
  Qed.
  Lemma prim_length Q C D s s' : prim csr clean Q C D s s' →
    length (c_socks s'.1) = length (c_socks s.1) ∨ (∃ a, c_socks s'.1 = c_socks s.1 ++ [a] ∧ c_nsps s'.1 = c_nsps s.1 ∧ C (length (c_socks s.1)) a ∧ sk_connected a = false ∧ sk_can_join a = true).
  Proof.
    intros P. destruct P; rewrite ?join_socks, ?leave_socks, ?create_child_socks; try (by left).
    - destruct H; try (by left). left. rewrite (onclose_socks csr clean _ _ _ a) by done. by rewrite alter_length.
    - right. exists a. done.
    - left. rewrite (do_connect_eq _ a) by done. cbn. by rewrite alter_length.
    - left. rewrite cleanup_socks. by rewrite alter_length.
  Qed.
  Lemma invC_prim Q C D s s' : prim csr clean Q C D s s' → invPC s.1 → invC s'.1.
  Proof.
    intros Pr [A I P N]. pose proof (prim_nsps csr clean _ _ _ _ _ Pr) as Hn. destruct Pr;
      try (apply (invC_frame s.1); first [exact A|exact N|exact Hn|done]).
    - destruct H; try (apply (invC_frame s.1); first [exact A|exact N|exact Hn|done]).
      + apply (invC_frame s.1); try done; intros c'; [by apply cnsps_alter|by apply csocks_alter].
      + apply (invC_frame s.1); try done; intros c'; [by apply cnsps_alter|by apply csocks_alter].
      + intros j b. rewrite (onclose_socks csr clean _ _ _ a) by done. rewrite alter_lookup. case_decide as Hjk.
        { subst. rewrite H1. intros [= <-]. done. }
        intros Hj Hb. destruct (N j b Hj Hb) as (N1 & N2 & N3). destruct (N k a H1 H2) as (_ & M2 & M3).
        destruct (P j k b a Hjk Hj H1) as [Hid Hcn]; [by eapply (ia_live _ A)..|].
        assert (name_of (onclose csr clean os reason k s).1 (sk_nsp b) = name_of s.1 (sk_nsp b)) as -> by (by eapply name_sock).
        split_and!.
        * unfold socks_of. rewrite (onclose_nsps csr clean _ _ _ a) by done. rewrite alter_lookup. case_decide as Hnn; [|done].
          unfold socks_of in N1. destruct (c_nsps s.1 !! sk_nsp b); [|done]. cbn. by rewrite lookup_delete_ne.
        * rewrite (onclose_csocks csr clean _ _ _ a) by done. case_decide; [|done]. by rewrite lookup_delete_ne.
        * rewrite (onclose_cnsps csr clean _ _ _ a) by done. rewrite M2, H1. case_decide as Hcl; [|done].
          rewrite lookup_delete_ne; [done|]. intros Hnm. by apply Hcn.
    - apply (invC_frame s.1); try done; intros c'.
      + unfold cnsps_of. cbn. destruct (decide (c' < length (c_clients s.1))); [by rewrite lookup_app_l|].
        rewrite lookup_app_r by lia. rewrite (lookup_ge_None_2 (c_clients s.1)) by lia. by destruct (c' - _) as [|[]].
      + unfold csocks_of. cbn. destruct (decide (c' < length (c_clients s.1))); [by rewrite lookup_app_l|].
        rewrite lookup_app_r by lia. rewrite (lookup_ge_None_2 (c_clients s.1)) by lia. by destruct (c' - _) as [|[]].
    - unfold join in *. destruct (c_socks s.1 !! k) as [b|]; [|done]. destruct (sk_can_join b); [|done].
      apply (invC_frame s.1); try done. intros n. by apply socks_alter.
    - unfold leave in *. destruct (c_socks s.1 !! k) as [b|]; [|done]. apply (invC_frame s.1); try done. intros n. by apply socks_alter.
    - apply (invC_frame s.1); try done. cbn. intros k b [Hk|[_ Hk]]%lookup_app_Some Hb; [done|].
      apply list_lookup_singleton_Some in Hk as [_ <-]. congruence.
    - rewrite (do_connect_eq _ a) in * by done. cbn [fst] in *.
      assert (is_Some (c_clients s.1 !! sk_client a)) as [cl Hcl].
      { unfold is_open in H2. destruct (c_clients s.1 !! sk_client a); [by eexists|done]. }
      destruct (ia_wf _ A k a H) as [[np Hnp]%lookup_lt_is_Some _].
      assert (∀ c, cnsps_of (conn2 a k s.1) c = if decide (c = sk_client a) then <[name_of s.1 (sk_nsp a) := k]> (cnsps_of s.1 c) else cnsps_of s.1 c) as Ecn.
      { intros c. unfold cnsps_of. cbn. rewrite alter_lookup. case_decide; [subst|done]. by rewrite Hcl. }
      assert (∀ c, csocks_of (conn2 a k s.1) c = if decide (c = sk_client a) then <[sk_id a := k]> (csocks_of s.1 c) else csocks_of s.1 c) as Ecs.
      { intros c. unfold csocks_of. cbn. rewrite alter_lookup. case_decide; [subst|done]. by rewrite Hcl. }
      assert (∀ n, socks_of (conn2 a k s.1) n = if decide (n = sk_nsp a) then <[sk_id a := k]> (socks_of s.1 n) else socks_of s.1 n) as Ens.
      { intros n. unfold socks_of. cbn. rewrite alter_lookup. case_decide; [subst|done]. by rewrite Hnp. }
      intros j b. cbn. rewrite alter_lookup. case_decide as Hjk.
      + subst. rewrite H. intros [= <-] _. cbn. rewrite Ecn, Ecs, Ens, !decide_True by done.
        rewrite (name_sock _ _ _ _ A Hn H), !lookup_insert. done.
      + intros Hj Hb. destruct (N j b Hj Hb) as (N1 & N2 & N3).
        destruct (P j k b a Hjk Hj H) as [Hid Hcnn]; [by eapply (ia_live _ A)|done|].
        rewrite Ecn, Ecs, Ens, (name_sock _ _ _ _ A Hn Hj). split_and!.
        * case_decide; [|done]. by rewrite lookup_insert_ne.
        * case_decide; [|done]. by rewrite lookup_insert_ne.
        * case_decide; [|done]. rewrite lookup_insert_ne; [done|]. intros Hnm. by apply Hcnn.
    - intros j b. rewrite cleanup_socks, alter_lookup. case_decide as Hjk.
      { subst. rewrite H0. intros [= <-]. cbn. congruence. }
      intros Hj Hb. destruct (N j b Hj Hb) as (N1 & N2 & N3).
      destruct (P j k b a Hjk Hj H0) as [Hid Hcn]; [by eapply (ia_live _ A)|done|].
      rewrite (name_sock _ _ _ _ A Hn Hj). split_and!.
      + unfold socks_of. rewrite (cleanup_nsps _ _ _ a) by done. rewrite alter_lookup. case_decide as Hnn; [|done].
        unfold socks_of in N1. destruct (c_nsps s.1 !! sk_nsp b); [|done]. cbn. by rewrite lookup_delete_ne.
      + unfold csocks_of. by rewrite cleanup_clients.
      + unfold cnsps_of. by rewrite cleanup_clients.
    - apply (invC_frame s.1); try done. by eapply (socks_app (Nspc name None empty_registry ∅ [] [])).
    - unfold create_child in *. rewrite H1 in *. apply (invC_frame s.1); try done. by eapply (socks_app (Nspc name (Some p) empty_registry ∅ (pa_on q) (pa_fns q))).
    - apply (invC_frame s.1); try done. intros n'. by apply socks_alter.
    - apply (invC_frame s.1); try done. intros n'. by apply socks_alter.
  Qed.

  (** ** The socket a step creates *)
  Lemma do_connect_socks k s : length (c_socks (do_connect k s).1) = length (c_socks s.1).
  Proof.
    unfold do_connect. destruct (c_socks s.1 !! k) as [a|]; [|done]. cbv zeta. unfold log, upd_client, on_core. cbn [fst].
    assert (∀ ty d s0, (sock_packet k ty d s0).1 = s0.1) as Hp by (intros; apply sock_packet_core). cbn. rewrite Hp.
    rewrite join_socks. cbn. by rewrite alter_length.
  Qed.
  Lemma grows_add c n x s : grows (c_socks (create_socket csr c n x s).1) (c_socks (add csr skip c n x s).1) →
    ∀ a, c_socks (add csr skip c n x s).1 !! length (c_socks s.1) = Some a → sk_client a = c ∧ sk_nsp a = n.
  Proof.
    intros Hg a Ha. destruct (create_socket_socks csr c n x s) as (b & Eb & _ & _ & E1 & E2 & _).
    destruct (Hg (length (c_socks s.1)) b) as (a' & Ha' & L); [by rewrite Eb, lookup_app_r, Nat.sub_diag|].
    rewrite Ha in Ha'. injection Ha' as <-. rewrite (la_client _ _ L), (la_nsp _ _ L). done.
  Qed.
  Lemma add_grows c n x s : grows (c_socks (create_socket csr c n x s).1) (c_socks (add csr skip c n x s).1).
  Proof.
    unfold add. destruct (create_socket_socks csr c n x s) as (a & Ea & E1 & E2 & E3 & E4 & E5 & E6 & _).
    destruct (_ && is_open _ c) eqn:E; [|apply grows_refl]. apply andb_prop in E as [_ E].
    assert (c_socks (create_socket csr c n x s).1 !! length (c_socks s.1) = Some a) as Ek by (by rewrite Ea, lookup_app_r, Nat.sub_diag).
    rewrite (do_connect_eq _ a) by (done || by rewrite E4). cbn. eapply grows_alter; [done|]. split; try done. intros; congruence.
  Qed.
  Lemma sock_packets_core k (l : list (list value)) s : (foldl (λ s d, sock_packet k EVENT d s) s l).1 = s.1.
  Proof. revert s. induction l as [|d l IH]; intros s0; [done|]. cbn. by rewrite IH, sock_packet_core. Qed.
  Lemma joins_nsps k (l : list room) s : nsps_grow (c_nsps s.1) (c_nsps (foldl (λ s r, join k [r] s) s l).1).
  Proof.
    revert s. induction l as [|d l IH]; intros s0; [apply nsps_grow_refl|]. cbn. eapply nsps_grow_trans; [|apply IH].
    unfold join. destruct (c_socks s0.1 !! k) as [b|]; [|apply nsps_grow_refl]. destruct (sk_can_join b); [|apply nsps_grow_refl].
    by apply nsps_grow_alter.
  Qed.
  Lemma create_socket_nsps c n x s : nsps_grow (c_nsps s.1) (c_nsps (create_socket csr c n x s).1).
  Proof.
    unfold create_socket. destruct (if csr then x_prev x else None) as [[[i rs] missed]|]; [|apply nsps_grow_refl].
    rewrite sock_packets_core. eapply nsps_grow_trans; [|apply joins_nsps]. apply nsps_grow_refl.
  Qed.
  Lemma add_nsps c n x s : nsps_grow (c_nsps s.1) (c_nsps (add csr skip c n x s).1).
  Proof.
    unfold add. eapply nsps_grow_trans; [apply create_socket_nsps|]. destruct (create_socket_socks csr c n x s) as (a & Ea & E1 & E2 & E3 & E4 & E5 & E6 & _).
    destruct (_ && is_open _ c) eqn:E; [|apply nsps_grow_refl]. apply andb_prop in E as [_ E].
    assert (c_socks (create_socket csr c n x s).1 !! length (c_socks s.1) = Some a) as Ek by (by rewrite Ea, lookup_app_r, Nat.sub_diag).
    rewrite (do_connect_eq _ a) by (done || by rewrite E4). cbn. by apply nsps_grow_alter.
  Qed.
  Lemma client_do_connect_new os c name x s a : sords_ok os → invA s.1 →
    c_socks (client_do_connect csr skip os c name x s).1 !! length (c_socks s.1) = Some a →
    sk_client a = c ∧ name_of (client_do_connect csr skip os c name x s).1 (sk_nsp a) = norm name.
  Proof.
    intros Hos A. unfold client_do_connect. destruct (of_name_frame os name None s) as [F1 F2].
    assert (rtc anyprim s (of_name os name None s)) as H by (by apply of_name_prims).
    pose proof (invA_rtc _ _ _ _ _ _ _ H A) as A'.
    destruct (c_reg (of_name os name None s).1 !! norm name) as [n|] eqn:E.
    - intros Ha. rewrite <- F2 in Ha. apply grows_add in Ha as [-> ->]; [|apply add_grows]. split; [done|].
      destruct (ia_name _ A' _ _ E) as (np & Hnp & <-). destruct (add_nsps c n x (of_name os name None s) n np Hnp) as (np' & Hnp' & E' & _).
      unfold name_of. by rewrite Hnp', E'.
    - intros Ha. rewrite F2 in Ha. apply lookup_lt_Some in Ha. lia.
  Qed.
  Lemma accept_new os c p name x s a : sords_ok os → invA s.1 →
    c_socks (accept csr skip os c p name x s).1 !! length (c_socks s.1) = Some a →
    sk_client a = c ∧ name_of (accept csr skip os c p name x s).1 (sk_nsp a) = norm name.
  Proof.
    intros Hos A. unfold accept. destruct (c_reg s.1 !! name) eqn:E; [by apply client_do_connect_new|].
    destruct (c_parents s.1 !! p) as [q|] eqn:Eq.
    - assert (anyprim s (create_child p name s)) as H by (by eapply pr_child).
      rewrite <- (create_child_socks p name s). apply client_do_connect_new; [done|]. by eapply invA_prim.
    - replace (create_child p name s) with s by (unfold create_child; by rewrite Eq). by apply client_do_connect_new.
  Qed.
  Lemma connect_new os c name ans x s a : sords_ok os → invA s.1 →
    c_socks (connect csr skip os c name ans x s).1 !! length (c_socks s.1) = Some a →
    sk_client a = c ∧ name_of (connect csr skip os c name ans x s).1 (sk_nsp a) = norm name.
  Proof.
    intros Hos A. unfold connect. destruct (c_reg s.1 !! name); [by apply client_do_connect_new|].
    destruct (check_loop _ _ _ _); [by apply accept_new|]. unfold deny. rewrite write_core. intros H%lookup_lt_Some. lia.
  Qed.
  Lemma packet_new os c p ans x s a : sords_ok os → invA s.1 → 
    c_socks (sstep (os, OPacket c p ans x) s).1 !! length (c_socks s.1) = Some a →
    sk_client a = c ∧ name_of (sstep (os, OPacket c p ans x) s).1 (sk_nsp a) = norm (p_nsp p) ∧ cnsps_of s.1 c !! p_nsp p = None.
  Proof.
    intros Hos A. cbn [step fst snd]. destruct (is_open s.1 c); [|intros H%lookup_lt_Some; lia].
    unfold ondecoded. destruct (cnsps_of s.1 c !! p_nsp p) as [k|] eqn:E.
    - case_decide; [|intros H9%lookup_lt_Some; cbn in H9; lia].
      assert (rtc (cprim csr clean (λ _ _, True)) s (client_close csr clean os c s)) as Hr by (by apply client_close_good).
      assert (length (c_socks (client_close csr clean os c s).1) = length (c_socks s.1)) as Hl.
      { clear -Hr. induction Hr as [|? y ? Hp _ IH]; [done|]. rewrite IH. apply (pr_c csr clean _ (λ _ _, False) (λ _, True)) in Hp.
        apply prim_length in Hp as [?|(? & _ & _ & [] & _)]. done. }
      intros H9%lookup_lt_Some. lia.
    - case_decide.
      + intros H'. split_and!; [..|done]; eapply connect_new; done.
      + assert (rtc (cprim csr clean (λ _ _, True)) s (client_close csr clean os c s)) as Hr by (by apply client_close_good).
        assert (length (c_socks (client_close csr clean os c s).1) = length (c_socks s.1)) as Hl.
        { clear -Hr. induction Hr as [|? y ? Hp _ IH]; [done|]. rewrite IH. apply (pr_c csr clean _ (λ _ _, False) (λ _, True)) in Hp.
          apply prim_length in Hp as [?|(? & _ & _ & [] & _)]. done. }
        intros H0%lookup_lt_Some. lia.
  Qed.
  Lemma open_new os id p3 ans x s a : sords_ok os → invA s.1 →
    c_socks (sstep (os, OOpen id p3 ans x) s).1 !! length (c_socks s.1) = Some a → sk_client a = length (c_clients s.1).
  Proof.
    intros Hos A. cbn [step fst snd]. set (s1 := on_core _ s). assert (c_socks s1.1 = c_socks s.1) as E by done.
    destruct p3; [|rewrite E; intros H%lookup_lt_Some; lia].
    rewrite <- E. intros H. eapply connect_new in H as [H _]; [done|done|].
    eapply (invA_prim csr clean (λ _ _, True) (λ _ _, True) (λ _, True) s); [|done]. apply pr_open.
  Qed.

  (** ** The invariant *)
  Definition pcprim (s s' : sys) : Prop := anyprim s s' ∧ invPC s.1 ∧ invPC s'.1.
  Lemma prim_any Q C D s s' : prim csr clean Q C D s s' → anyprim s s'.
  Proof.
    intros P. destruct P; [|econstructor; eauto; done..]. apply pr_c. destruct H; econstructor; eauto; done.
  Qed.
  Lemma step_pcprims e s : op_env s e → polite_op csr skip clean s e → invPC s.1 → rtc pcprim s (sstep e s).
  Proof.
    intros He Hp PC. pose proof (pc_a _ PC) as A.
    set (s' := sstep e s) in *.
    set (C := λ k (a : sock), k = length (c_socks s.1) ∧ ∃ a', c_socks s'.1 !! k = Some a' ∧ sk_id a' = sk_id a ∧ sk_nsp a' = sk_nsp a ∧ sk_client a' = sk_client a).
    assert (rtc (prim csr clean (λ _ _, True) C (λ _, True)) s s') as Hr.
    { apply step_prims; try done. }
    assert (∀ a, c_socks s'.1 !! length (c_socks s.1) = Some a → fits s.1 (name_of s'.1) a) as Hfit.
    { intros a Ha j b Hj. destruct Hp as [Hp Hsl]. destruct (Hp a Ha j b Hj) as [H1 H2]. split; [done|].
      intros (Hb & Hcl & Hnm). destruct (H2 Hb Hcl Hnm) as [Hcon Hans].
      assert (name_of s'.1 (sk_nsp b) = name_of s.1 (sk_nsp b)) as Enm.
      { eapply name_sock; [done| |done]. by eapply rtc_nsps. }
      destruct (pc_c _ PC j b Hj Hcon) as (_ & _ & N3).
      destruct e as [os o]. destruct o; cbn in Hans, Hsl; try done.
      - pose proof (open_new _ _ _ _ _ _ _ (proj1 He) A Ha) as Hc. destruct (ia_wf _ A j b Hj) as [_ Hlt]. rewrite Hcl, Hc in Hlt. lia.
      - destruct (packet_new _ _ _ _ _ _ _ (proj1 He) A Ha) as (E1 & E2 & E3). cbn [fst] in E2. fold s' in E2.
        rewrite Hsl in E2. rewrite <- Enm, Hnm, E2, Hcl, E1 in N3. congruence. }
    assert (rtc pcprim s s' ∧ invPC s'.1) as [? _]; [|done].
    eapply (rtc_mid _ (λ s1, rtc pcprim s s1 ∧ invPC s1.1) s s' Hr); [done|].
    intros x y Hx Hxy Hy [Hsx PCx]. assert (invPC y.1) as PCy.
    2:{ split; [|done]. eapply rtc_r; [exact Hsx|]. split_and!; [by eapply prim_any|done..]. }
    destruct PCx as [Ax Ix Px Cx]. pose proof (invA_prim _ _ _ _ _ _ _ Hxy Ax) as Ay.
    pose proof (prim_nsps _ _ _ _ _ _ _ Hxy) as Hn. pose proof (prim_socks _ _ _ _ _ _ _ Hxy) as Hg.
    pose proof (rtc_nsps _ _ _ _ _ _ _ Hy) as Hny.
    assert (invC y.1) as Cy by (eapply invC_prim; [done|by split]).
    destruct (prim_length _ _ _ _ _ Hxy) as [Hl|(a & Es & En & [Hk (a' & Ha' & F1 & F2 & F3)] & Ea & Eb)].
    { split; [done| | |done]; [eapply ids_old, Ix|eapply invP_old, Px]; done. }
    assert (∀ j b, c_socks x.1 !! j = Some b →
      (sk_id b = sk_id a → sk_can_join b = false ∧ name_of y.1 (sk_nsp b) = name_of y.1 (sk_nsp a)) ∧
      ¬ (sk_can_join b = true ∧ sk_client b = sk_client a ∧ name_of y.1 (sk_nsp b) = name_of y.1 (sk_nsp a))) as Hf.
    { intros j b Hj. assert (∃ b0, c_socks s.1 !! j = Some b0 ∧ later b0 b) as (b0 & Hj0 & Lb).
      { apply lookup_lt_Some in Hj as Hlt. rewrite Hk in Hlt. apply lookup_lt_is_Some in Hlt as [b0 H0].
        destruct (rtc_socks _ _ _ _ _ _ _ Hx _ _ H0) as (b1 & H1 & L). rewrite Hj in H1. injection H1 as <-. eauto. }
      rewrite Hk in Ha'. destruct (Hfit a' Ha' j b0 Hj0) as [G1 G2].
      assert (name_of s'.1 (sk_nsp b0) = name_of y.1 (sk_nsp b)) as E1.
      { rewrite <- (la_nsp _ _ Lb). eapply (name_sock y.1 s'.1 j b); [done|done|]. rewrite Es. by apply lookup_app_l_Some. }
      assert (name_of s'.1 (sk_nsp a') = name_of y.1 (sk_nsp a)) as E2.
      { rewrite F2. eapply (name_sock y.1 s'.1 (length (c_socks x.1)) a); [done|done|]. by rewrite Es, lookup_app_r, Nat.sub_diag. }
      rewrite E1, E2, F1, F3, <- (la_id _ _ Lb), <- (la_client _ _ Lb) in *. split.
      - intros Hid. destruct (G1 Hid) as [G3 G4]. split; [|done]. destruct (sk_can_join b) eqn:Ej; [|done]. apply (la_open _ _ Lb) in Ej. congruence.
      - intros (K1 & K2 & K3). apply G2. split_and!; try done. by apply (la_open _ _ Lb). }
    split; [done| | |done].
    - intros j k b1 b2. rewrite Es. intros [Hj|[_ Hj]]%lookup_app_Some [Hkk|[_ Hkk]]%lookup_app_Some.
      + unfold name_of. rewrite En. by apply (Ix j k).
      + apply list_lookup_singleton_Some in Hkk as [_ <-]. intros Hid. by apply (Hf j b1 Hj).
      + apply list_lookup_singleton_Some in Hj as [_ <-]. intros Hid. symmetry. by apply (Hf k b2 Hkk).
      + apply list_lookup_singleton_Some in Hj as [_ <-]. apply list_lookup_singleton_Some in Hkk as [_ <-]. done.
    - intros j k b1 b2 Hne. rewrite Es. intros [Hj|[Hj1 Hj]]%lookup_app_Some [Hkk|[Hk1 Hkk]]%lookup_app_Some J1 J2.
      + unfold name_of. rewrite En. by apply (Px j k).
      + apply list_lookup_singleton_Some in Hkk as [_ <-]. destruct (Hf j b1 Hj) as [G1 G2]. split; [|naive_solver]. intros Hid. apply G1 in Hid as [? _]. congruence.
      + apply list_lookup_singleton_Some in Hj as [_ <-]. destruct (Hf k b2 Hkk) as [G1 G2]. split; [|naive_solver]. intros Hid. symmetry in Hid. apply G1 in Hid as [? _]. congruence.
      + apply list_lookup_singleton_Some in Hj as [? _]. apply list_lookup_singleton_Some in Hkk as [? _]. lia.
  Qed.
  Lemma invPC_init : invPC init.1.
  Proof. split; [exact (invA_init (λ _ _, True))|..]; intros ?; intros; done. Qed.
  Lemma nice_snoc h e : nice (h ++ [e]) → nice h ∧ polite_op csr skip clean (srun h) e.
  Proof.
    intros H. split; [|by apply (H h e [])]. intros h1 e1 h2 ->. apply (H h1 e1 (h2 ++ [e])). by rewrite <- app_assoc.
  Qed.
  Lemma nice_app h h' : nice (h ++ h') → nice h.
  Proof. intros H h1 e h2 ->. apply (H h1 e (h2 ++ h')). by rewrite <- app_assoc. Qed.
  Lemma step_PC e s : op_env s e → polite_op csr skip clean s e → invPC s.1 → invPC (sstep e s).1.
  Proof.
    intros He Hp PC. pose proof (step_pcprims e s He Hp PC) as H. destruct H as [|? ? ? [_ [_ H1]] H2]; [done|].
    clear -H1 H2. induction H2 as [|? ? ? [_ [_ H3]] _ IH]; auto.
  Qed.
  Lemma run_PC h : envok h → nice h → invPC (srun h).1.
  Proof.
    induction h as [|e h IH] using rev_ind; intros He Hn; [exact invPC_init|].
    apply env_snoc in He as [He Ho]. apply nice_snoc in Hn as [Hn Hp]. rewrite run_snoc. apply step_PC; auto.
  Qed.
  (** An invariant of the elementary transitions between well-behaved states. *)
  Lemma run_inv_PC (P : sys → Prop) : P init → (∀ s s', anyprim s s' → invPC s.1 → invPC s'.1 → P s → P s') →
    ∀ h, envok h → nice h → P (srun h).
  Proof.
    intros H0 Hp h. induction h as [|e h IH] using rev_ind; intros He Hn; [done|].
    apply env_snoc in He as [He Ho]. apply nice_snoc in Hn as [Hn Hq]. rewrite run_snoc.
    pose proof (step_pcprims e _ Ho Hq (run_PC h He Hn)) as Hr. specialize (IH He Hn). clear Ho Hq. revert IH.
    induction Hr as [|? ? ? (P1 & P2 & P3) _ IH']; [done|]. intros Hs. apply IH'. by eapply Hp.
  Qed.
  (** Transitions that only close keep the environment well-behaved. *)
  Lemma cprim_PC Q s s' : cprim csr clean Q s s' → invPC s.1 → invPC s'.1.
  Proof.
    intros P PC. pose proof PC as [A I Pp N]. assert (prim csr clean Q (λ _ _, False) (λ _, True) s s') as P' by (by apply pr_c).
    pose proof (prim_nsps _ _ _ _ _ _ _ P') as Hn. pose proof (prim_socks _ _ _ _ _ _ _ P') as Hg.
    destruct (prim_length _ _ _ _ _ P') as [Hl|(? & _ & _ & [] & _)].
    split; [by eapply invA_prim|eapply ids_old, I|eapply invP_old, Pp|by eapply invC_prim]; done.
  Qed.
  Lemma crtc_PC Q s s' : rtc (cprim csr clean Q) s s' → invPC s.1 → invPC s'.1.
  Proof. induction 1; [done|]. eauto using cprim_PC. Qed.
End polite.
