(** Registered namespaces: declaration, creation, removal (C34-C36). *)
From Coq Require Import Ascii.
From Verif Require Import Base GoTypes Rooms RoomsSpec RoomsProofs Adapter AdapterSpec Session System SystemSpec SystemProofs SystemLife SystemPolite SystemClaims SystemNsp.

Section reg.
  Context (csr skip clean : bool).
  Notation sstep := (step csr skip clean).
  Notation srun := (run csr skip clean).
  Notation envok := (env_ok csr skip clean).
  Notation nice := (polite csr skip clean).
  Notation anyprim := (prim csr clean (λ _ _, True) (λ _ _, True) (λ _, True)).
  Notation cprim := (cprim csr clean).

  (** ** Names *)
  Lemma slashed_norm m : slashed m ↔ norm m = m.
  Proof.
    split.
    - intros [t ->]. done.
    - destruct m as [|ch m]; [done|]. unfold norm. case_decide; [subst; intros _; by exists m|]. intros E. exfalso.
      cbn in E. injection E as E1 _. congruence.
  Qed.
  Lemma norm_slashed m : slashed (norm m).
  Proof. apply slashed_norm. destruct m as [|ch m]; [done|]. unfold norm at 2 3. case_decide as H; [|done]. unfold norm. by rewrite decide_True. Qed.
  Lemma canon_norm raw m : canon raw m ↔ norm raw = m.
  Proof.
    split.
    - intros [Hs [->|[Hn ->]]]; [by apply slashed_norm|]. destruct raw as [|ch raw]; [done|]. unfold norm. case_decide; [|done].
      subst. destruct Hn. by exists raw.
    - intros <-. split; [apply norm_slashed|]. destruct raw as [|ch raw].
      + right. split; [|done]. by intros [t [=]].
      + unfold norm. case_decide as H; [by left|]. right. split; [|done]. intros [t [= ->]]. done.
  Qed.

  (** ** Where names of namespaces come from (C34) *)
  Lemma prim_names Q C D s s' n np' : prim csr clean Q C D s s' → c_nsps s'.1 !! n = Some np' →
    (∃ np, c_nsps s.1 !! n = Some np ∧ np_name np' = np_name np) ∨ D (BNsp (np_name np')).
  Proof.
    intros P E. assert (length (c_nsps s.1) ≤ n ∨ n < length (c_nsps s.1)) as [Hlt|Hlt] by lia.
    2:{ left. apply lookup_lt_is_Some in Hlt as [np Hnp]. destruct (prim_nsps _ _ _ _ _ _ _ P n np Hnp) as (np2 & E2 & E3 & _).
        exists np. split; [done|]. rewrite E in E2. by injection E2 as ->. }
    right. assert (length (c_nsps s'.1) = length (c_nsps s.1) → False) as Hno by (apply lookup_lt_Some in E; lia).
    destruct P; try (by destruct Hno).
    - destruct H; try (by destruct Hno). destruct Hno. rewrite (onclose_nsps csr clean _ _ _ a) by done. apply alter_length.
    - destruct Hno. unfold join. destruct (c_socks s.1 !! k) as [a|]; [|done]. destruct (sk_can_join a); [|done]. apply alter_length.
    - destruct Hno. unfold leave. destruct (c_socks s.1 !! k) as [a|]; [|done]. apply alter_length.
    - destruct Hno. rewrite (do_connect_eq _ a) by done. cbn. apply alter_length.
    - destruct Hno. rewrite (cleanup_nsps _ _ _ a) by done. apply alter_length.
    - cbn in E. apply lookup_app_Some in E as [E|[_ E]]; [apply lookup_lt_Some in E; lia|]. by apply list_lookup_singleton_Some in E as [_ <-].
    - unfold create_child in E. rewrite H1 in E. cbn in E. apply lookup_app_Some in E as [E|[_ E]]; [apply lookup_lt_Some in E; lia|]. by apply list_lookup_singleton_Some in E as [_ <-].
    - destruct Hno. apply alter_length.
    - destruct Hno. apply alter_length.
  Qed.
  Lemma rtc_names Q C D s s' n np' : rtc (prim csr clean Q C D) s s' → c_nsps s'.1 !! n = Some np' →
    (∃ np, c_nsps s.1 !! n = Some np ∧ np_name np' = np_name np) ∨ D (BNsp (np_name np')).
  Proof.
    intros Hr. revert np'. induction Hr as [s|s y s' P Hr IH]; intros np' E; [eauto|]. destruct (IH np' E) as [(np & Hnp & ->)|]; [|auto].
    by eapply prim_names.
  Qed.
  Lemma check_loop_accepts os x ans m q : sords_ok os → check_loop x ans m (so_parents os (seq 0 (length (c_parents x)))) = Some q → accepts x ans m q.
  Proof.
    intros Hos. assert (∀ l, check_loop x ans m l = Some q → accepts x ans m q) as H.
    { induction l as [|p l IH]; [done|]. cbn. unfold answer. destruct (c_parents x !! p) as [pa|] eqn:E; [|apply IH].
      destruct (pa_match pa) as [f|] eqn:Em.
      - destruct (f m) eqn:Ef; [|apply IH]. intros [= <-]. exists pa. split; [done|]. by rewrite Em.
      - destruct (ans p) as [[]|] eqn:Ea; [|apply IH|done]. intros [= <-]. exists pa. split; [done|]. by rewrite Em. }
    apply H.
  Qed.
  Lemma births_declares s e m : op_env s e → match e.2 with OPacket _ p _ _ => slashed (p_nsp p) | OAnswer _ _ m _ => slashed m | _ => True end →
    births_nsp s e m → declares s.1 e.2 m.
  Proof.
    destruct e as [os o]. intros [Hos Ho] Hs Hb. unfold births_nsp in Hb. cbn [fst snd] in *. destruct o; try done.
    - destruct Hb as [Ht Hb]. apply slashed_norm in Hs as Hs'.
      assert (m = p_nsp p) as ->. { destruct Hb as [(_ & _ & [H9|H9])|(_ & _ & H9)]; congruence. }
      destruct Hb as [(Hr & [q Hq] & _)|([n Hr] & Hr' & _)]; [|congruence]. apply (de_sync _ _ _ _ _ q); [done|]. by eapply check_loop_accepts.
    - apply slashed_norm in Hs as Hs'. destruct Ho as (_ & pa & Hp & Hm). assert (m = name) as -> by (destruct Hb; congruence). by eapply de_late.
    - constructor. by apply canon_norm.
  Qed.
  Lemma declared_more h e m : declared csr skip clean h m → declared csr skip clean (h ++ [e]) m.
  Proof. intros [->|(h1 & e1 & h2 & -> & H)]; [by left|]. right. exists h1, e1, (h2 ++ [e]). split; [|done]. by rewrite <- app_assoc. Qed.
  Lemma c34_declared_l h : envok h → asks_slashed h → ∀ n np, c_nsps (srun h).1 !! n = Some np → declared csr skip clean h (np_name np).
  Proof.
    induction h as [|e h IH] using rev_ind; intros He Hs n np Hn.
    { cbn in Hn. apply list_lookup_singleton_Some in Hn as [_ <-]. by left. }
    apply env_snoc in He as [He Ho]. assert (asks_slashed h) as Hs' by (intros e' He'; apply Hs, elem_of_app; by left).
    destruct (run_B csr skip clean h He) as [A _]. rewrite run_snoc in Hn.
    assert (rtc (prim csr clean (λ _ _, True) (λ _ _, True) (births (srun h) e)) (srun h) (sstep e (srun h))) as Hr by (by apply step_prims).
    destruct (rtc_names _ _ _ _ _ _ _ Hr Hn) as [(np0 & Hnp & ->)|Hb]; [by eapply declared_more, IH|].
    right. exists h, e, []. split; [done|]. apply births_declares; try done. apply Hs, elem_of_app. right. by apply elem_of_list_singleton.
  Qed.
  Lemma c34_socket_l h k a : envok h → asks_slashed h → c_socks (srun h).1 !! k = Some a → declared csr skip clean h (name_of (srun h).1 (sk_nsp a)).
  Proof.
    intros He Hs Hk. destruct (run_B csr skip clean h He) as [A _]. destruct (ia_wf _ A k a Hk) as [[np Hn]%lookup_lt_is_Some _].
    unfold name_of. rewrite Hn. by eapply c34_declared_l.
  Qed.
  Lemma check_loop_None x ans m l : (∀ q, ¬ accepts x ans m q) → check_loop x ans m l = None.
  Proof.
    intros H. induction l as [|p l IH]; [done|]. cbn. unfold answer. destruct (c_parents x !! p) as [pa|] eqn:E; [|done].
    specialize (H p). unfold accepts in H. destruct (pa_match pa) as [f|] eqn:Em.
    - destruct (f m) eqn:Ef; [|done]. destruct H. exists pa. split; [done|]. by rewrite Em.
    - destruct (ans p) as [[]|] eqn:Ea; [|done..]. destruct H. exists pa. split; [done|]. by rewrite Em.
  Qed.
  Lemma check_loop_Some os x ans m q : sords_ok os → accepts x ans m q → (∀ q pa, c_parents x !! q = Some pa → pa_match pa = MFun → ans q ≠ None) →
    is_Some (check_loop x ans m (so_parents os (seq 0 (length (c_parents x))))).
  Proof.
    intros Hos Ha Hsync. assert (q ∈ so_parents os (seq 0 (length (c_parents x)))) as Hq.
    { destruct Hos as (_ & _ & _ & _ & Hp & _). rewrite (Hp _). apply elem_of_seq. destruct Ha as (pa & E & _). apply lookup_lt_Some in E. lia. }
    induction (so_parents os (seq 0 (length (c_parents x)))) as [|p l IH]; [by apply elem_of_nil in Hq|]. cbn. unfold answer.
    destruct (decide (p = q)) as [->|Hne].
    - destruct Ha as (pa & E & Hm). rewrite E. destruct (pa_match pa) eqn:Em; rewrite Hm; eauto.
    - apply elem_of_cons in Hq as [?|Hq]; [congruence|]. specialize (IH Hq). destruct (c_parents x !! p) as [pa|] eqn:E; [|done].
      destruct (pa_match pa) as [f|] eqn:Em; [destruct (f m); eauto|]. pose proof (Hsync p pa E Em). destruct (ans p) as [[]|]; eauto; done.
  Qed.
  Lemma c34_denied_l h os c p ans x : envok h → nice h → is_open (srun h).1 c = true → p_type p = CONNECT → (¬ ∃ k, joined (srun h).1 c (p_nsp p) k) →
    (¬ ∃ n, registered (srun h).1 (p_nsp p) n) → (∀ q, ¬ accepts (srun h).1 ans (p_nsp p) q) →
    sstep (os, OPacket c p ans x) (srun h) = ((srun h).1, (srun h).2 ++ [((srun h).1, EWrite c (Packet CONNECT_ERROR (p_nsp p) [VMap [("message", VStr "Invalid namespace")]] None))]).
  Proof.
    intros He Hn Ho Ht Hj Hr Ha. pose proof (run_PC csr skip clean h He Hn) as PC. pose proof (run_N csr skip clean h He (pc_i _ PC)) as N.
    cbn. rewrite Ho. unfold ondecoded. destruct (cnsps_of (srun h).1 c !! p_nsp p) as [k|] eqn:E.
    { destruct Hj. apply joined_table; [apply PC|done|done|eauto]. }
    rewrite decide_True by done. unfold connect. destruct (c_reg (srun h).1 !! p_nsp p) as [n|] eqn:Er; [destruct Hr; by exists n|].
    rewrite check_loop_None by done. unfold deny, write. by rewrite Ho.
  Qed.

  (** ** Of (C35) *)
  Lemma of_name_reg os raw fn s : sords_ok os →
    c_reg (of_name os raw fn s).1 !! norm raw = Some (default (length (c_nsps s.1)) (c_reg s.1 !! norm raw)).
  Proof.
    intros Hos. unfold of_name. destruct (c_reg s.1 !! norm raw) as [n|] eqn:E; [destruct fn; done|].
    destruct (first_match os s.1 (norm raw)) as [p|] eqn:Ef.
    - destruct (first_match_Some _ _ _ _ Hos Ef) as [_ [q Hq]]. unfold create_child. rewrite Hq. cbn. by rewrite lookup_insert.
    - case_decide; destruct fn; cbn; rewrite ?lookup_insert; cbn; by rewrite ?lookup_insert.
  Qed.
  Lemma of_name_norm os raw m fn s : canon raw m → of_name os raw fn s = of_name os m fn s.
  Proof. intros H. pose proof (proj1 H) as Hs. apply canon_norm in H. apply slashed_norm in Hs. unfold of_name. by rewrite H, Hs. Qed.

  (** ** Admission (C34) *)
  Lemma add_length c n x s : length (c_socks (add csr skip c n x s).1) = S (length (c_socks s.1)).
  Proof.
    unfold add. destruct (create_socket_socks csr c n x s) as (a & Ea & E1 & E2 & E3 & E4 & E5 & E6 & _).
    assert (length (c_socks (create_socket csr c n x s).1) = S (length (c_socks s.1))) as Hl by (rewrite Ea, app_length; cbn; lia).
    destruct (_ && is_open _ c) eqn:E; [|done]. apply andb_prop in E as [_ E].
    assert (c_socks (create_socket csr c n x s).1 !! length (c_socks s.1) = Some a) as Ek by (by rewrite Ea, lookup_app_r, Nat.sub_diag).
    rewrite (do_connect_eq _ a) by (done || by rewrite E4). cbn. by rewrite alter_length.
  Qed.
  Lemma client_do_connect_length os c name x s : sords_ok os → length (c_socks (client_do_connect csr skip os c name x s).1) = S (length (c_socks s.1)).
  Proof.
    intros Hos. unfold client_do_connect. rewrite of_name_reg by done. rewrite add_length. by destruct (of_name_frame os name None s) as [_ ->].
  Qed.
  Lemma connect_length os c name ans x s : sords_ok os → is_Some (c_reg s.1 !! name) ∨ is_Some (check_loop s.1 ans name (so_parents os (seq 0 (length (c_parents s.1))))) →
    length (c_socks (connect csr skip os c name ans x s).1) = S (length (c_socks s.1)).
  Proof.
    intros Hos H. unfold connect. destruct (c_reg s.1 !! name) eqn:E; [by apply client_do_connect_length|].
    destruct H as [[? ?]|[p ->]]; [done|]. unfold accept. rewrite E. rewrite client_do_connect_length by done. by rewrite create_child_socks.
  Qed.
  Lemma c34_admitted_l h os c p ans x q : envok h → nice h → sords_ok os → is_open (srun h).1 c = true → p_type p = CONNECT → slashed (p_nsp p) →
    (¬ ∃ k, joined (srun h).1 c (p_nsp p) k) →
    (∃ n, registered (srun h).1 (p_nsp p) n) ∨ accepts (srun h).1 ans (p_nsp p) q ∧ (∀ q pa, c_parents (srun h).1 !! q = Some pa → pa_match pa = MFun → ans q ≠ None) →
    ∃ a, c_socks (sstep (os, OPacket c p ans x) (srun h)).1 !! length (c_socks (srun h).1) = Some a ∧ sk_client a = c ∧
      name_of (sstep (os, OPacket c p ans x) (srun h)).1 (sk_nsp a) = p_nsp p.
  Proof.
    intros He Hn Hos Ho Ht Hs Hj Ha. pose proof (run_PC csr skip clean h He Hn) as PC. pose proof (run_N csr skip clean h He (pc_i _ PC)) as N.
    assert (length (c_socks (sstep (os, OPacket c p ans x) (srun h)).1) = S (length (c_socks (srun h).1))) as Hl.
    { cbn. rewrite Ho. unfold ondecoded. destruct (cnsps_of (srun h).1 c !! p_nsp p) as [k|] eqn:E.
      { destruct Hj. apply joined_table; [apply PC|done|done|eauto]. }
      rewrite decide_True by done. apply connect_length; [done|]. destruct Ha as [[n Hr]|[Ha Hsync]]; [left; by exists n|right; by eapply check_loop_Some]. }
    destruct (lookup_lt_is_Some_2 (c_socks (sstep (os, OPacket c p ans x) (srun h)).1) (length (c_socks (srun h).1))) as [a Hk]; [lia|].
    exists a. split; [done|]. destruct (packet_new csr skip clean os c p ans x (srun h) a Hos (pc_a _ PC) Hk) as (E1 & E2 & _).
    split; [done|]. rewrite E2. by apply slashed_norm.
  Qed.

  (** ** Of, continued (C35) *)
  Lemma alter_last {A} (f : A → A) l x : alter f (length l) (l ++ [x]) = l ++ [f x].
  Proof. induction l as [|y l IH]; [done|]. cbn. f_equal. apply IH. Qed.
  Lemma c35_known_l h os raw m fn n : envok (h ++ [(os, OOf raw fn)]) → canon raw m → registered (srun h).1 m n →
    srun (h ++ [(os, OOf raw fn)]) = match fn with Some f => upd_nsp n (np_add_on f) (srun h) | None => srun h end.
  Proof.
    intros He Hc%canon_norm Hr. rewrite run_snoc. cbn. unfold of_name. rewrite Hc. unfold registered in Hr. rewrite Hr. by destruct fn.
  Qed.
  Lemma c35_new_l h os raw m fn : envok (h ++ [(os, OOf raw fn)]) → canon raw m → (¬ ∃ n, registered (srun h).1 m n) →
    let n := length (c_nsps (srun h).1) in let s' := srun (h ++ [(os, OOf raw fn)]) in
    registered s'.1 m n ∧ (∃ x, s'.2 = (srun h).2 ++ [(x, ENewNsp n)]) ∧
    (∃ np, c_nsps s'.1 = c_nsps (srun h).1 ++ [np] ∧ np_name np = m ∧ np_sockets np = ∅ ∧
       ((∀ q, ¬ accepts (srun h).1 (λ _, None) m q) → np_parent np = None ∧ np_on np = match fn with Some f => [f] | None => [] end)).
  Proof.
    intros [He [Hos _]]%env_snoc Hc%canon_norm Hr. cbn zeta. rewrite run_snoc. cbn. destruct (run_B csr skip clean h He) as [A _].
    assert (c_reg (srun h).1 !! m = None) as Er. { destruct (c_reg (srun h).1 !! m) as [n|] eqn:E; [destruct Hr; by exists n|done]. }
    split. { unfold registered. rewrite <- Hc, of_name_reg, Hc, Er by done. done. }
    unfold of_name. rewrite Hc, Er. assert (m ≠ "/") as Hm by (intros ->; rewrite (ia_root _ A) in Er; done).
    destruct (first_match os (srun h).1 m) as [p|] eqn:Ef.
    - destruct (first_match_Some _ _ _ _ Hos Ef) as [Hrm [q Hq]]. unfold create_child. rewrite Hq. split; [by eexists|].
      eexists. split; [done|]. split; [done|]. split; [done|]. intros Hno. exfalso. apply (Hno p). exists q. split; [done|].
      unfold regex_matches in Hrm. rewrite Hq in Hrm. by destruct (pa_match q).
    - rewrite decide_False by done. destruct fn as [f|]; cbn.
      + rewrite lookup_insert. split; [by eexists|]. eexists. split.
        { unfold upd_nsp, log, new_nsp, on_core. cbn. apply alter_last. }
        cbn. split; [done|]. split; [done|]. done.
      + split; [by eexists|]. eexists. split; [done|]. done.
  Qed.
  Definition invE (s : sys) : Prop := announced s.2 = seq 1 (length (c_nsps s.1) - 1) ∧ 0 < length (c_nsps s.1).
  Lemma announced_app l1 l2 : announced (l1 ++ l2) = announced l1 ++ announced l2.
  Proof. apply omap_app. Qed.
  Lemma run_E h : envok h → invE (srun h).
  Proof.
    revert h. apply (run_inv csr skip clean invE); [split; [done|cbn; lia]|]. intros s s' P A [E1 E2]. unfold invE. destruct P; try done.
    - destruct H; cbn; rewrite ?announced_app; try done.
      + destruct e; try done; cbn; by rewrite app_nil_r.
      + destruct e; try done; cbn; by rewrite app_nil_r.
      + cbn. by rewrite app_nil_r.
      + rewrite (onclose_nsps csr clean _ _ _ a), alter_length, (onclose_log csr clean _ _ _ a) by done. rewrite announced_app, announced_app.
        unfold close_logs. destruct (csr && _); cbn; by rewrite app_nil_r.
    - rewrite join_log. unfold join. destruct (c_socks s.1 !! k) as [a|]; [|done]. destruct (sk_can_join a); [|done]. cbn. by rewrite alter_length.
    - rewrite leave_log. unfold leave. destruct (c_socks s.1 !! k) as [a|]; [|done]. cbn. by rewrite alter_length.
    - rewrite (do_connect_eq _ a) by done. cbn. by rewrite alter_length, announced_app, app_nil_r.
    - rewrite (cleanup_nsps _ _ _ a), alter_length, cleanup_log by done. done.
    - cbn. rewrite announced_app, app_length, E1. cbn. split; [|lia].
      replace (length (c_nsps s.1) + 1 - 1) with (length (c_nsps s.1) - 1 + 1) by lia. rewrite seq_app. cbn. do 2 f_equal. lia.
    - unfold create_child. rewrite H1. cbn. rewrite announced_app, app_length, E1. cbn. split; [|lia].
      replace (length (c_nsps s.1) + 1 - 1) with (length (c_nsps s.1) - 1 + 1) by lia. rewrite seq_app. cbn. do 2 f_equal. lia.
    - cbn. by rewrite alter_length.
    - cbn. by rewrite alter_length.
  Qed.
  Lemma c35_once_l h : envok h → announced (srun h).2 = seq 1 (length (c_nsps (srun h).1) - 1).
  Proof. intros He. by apply run_E. Qed.
End reg.
