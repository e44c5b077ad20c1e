(** Lifecycle of the sockets (C19-C22). *)
From Verif Require Import Base GoTypes Rooms RoomsSpec RoomsProofs Adapter Session System SystemSpec SystemProofs.

Section life.
  Context (csr skip clean : bool).
  Notation sstep := (step csr skip clean).
  Notation srun := (run csr skip clean).
  Notation envok := (env_ok csr skip clean).
  Notation anyprim := (prim csr clean (λ _ _, True) (λ _ _, True) (λ _, True)).

  Lemma lives_app k l1 l2 : lives k (l1 ++ l2) = lives k l1 ++ lives k l2.
  Proof. apply omap_app. Qed.

  (** ** What a transition adds to the log *)
  Definition plain (e : eff) : Prop :=
    match e with EWrite _ p => p_type p ≠ CONNECT | EAny _ _ | EAck _ _ | EErr _ | EHangup _ | ENewNsp _ => True | _ => False end.
  Inductive added (Q : option string → sock → Prop) (s s' : sys) : list (core * eff) → Prop :=
    | ad_nil : added Q s s' []
    | ad_plain e : plain e → (incoming e → ∃ a, Q None a) → c_socks s'.1 = c_socks s.1 → added Q s s' [(s'.1, e)]
    | ad_dispatch k a p : Q None a → c_socks s.1 !! k = Some a → sk_connected a = true → s'.1 = s.1 → added Q s s' [(s.1, EDispatch k p)]
    | ad_connect k a fns : c_socks s.1 !! k = Some a → sk_connected a = false → sk_can_join a = true → is_open s.1 (sk_client a) = true →
        s'.1 = conn2 a k s.1 → fns = (match c_nsps s.1 !! sk_nsp a with Some n => np_on n | None => [] end) →
        added Q s s' [(conn1 a k s.1, EWrite (sk_client a) (hello a s.1)); (s'.1, EConnect k fns); (s'.1, EConnection k)]
    | ad_close os reason k a : Q (Some reason) a → sords_ok os → c_socks s.1 !! k = Some a → sk_connected a = true → s' = onclose csr clean os reason k s →
        added Q s s' (close_logs csr reason k s.1 ++ [(s'.1, EDisconnect k reason)]).
  Lemma create_child_log p name q s : c_parents s.1 !! p = Some q →
    (create_child p name s).2 = s.2 ++ [((create_child p name s).1, ENewNsp (length (c_nsps s.1)))].
  Proof. intros E. unfold create_child. rewrite E. done. Qed.
  Lemma join_log k rs s : (join k rs s).2 = s.2.
  Proof. unfold join. destruct (c_socks s.1 !! k) as [b|]; [|done]. by destruct (sk_can_join b). Qed.
  Lemma leave_log k r s : (leave k r s).2 = s.2.
  Proof. unfold leave. by destruct (c_socks s.1 !! k) as [b|]. Qed.
  Lemma prim_added Q C D s s' : prim csr clean Q C D s s' → ∃ l, s'.2 = s.2 ++ l ∧ added Q s s' l.
  Proof.
    intros P. destruct P.
    - destruct H.
      + exists [(s.1, e)]. split; [done|]. apply (ad_plain Q s (log e s) e); [|by destruct e|done]. by destruct e.
      + exists [(s.1, e)]. split; [done|]. apply (ad_plain Q s (log e s) e); [|by exists a|done]. by destruct e.
      + exists [(s.1, EDispatch k p)]. split; [done|]. by eapply ad_dispatch.
      + exists []. split; [by rewrite app_nil_r|constructor].
      + exists []. split; [by rewrite app_nil_r|constructor].
      + exists []. split; [by rewrite app_nil_r|constructor].
      + exists (close_logs csr reason k s.1 ++ [((onclose csr clean os reason k s).1, EDisconnect k reason)]).
        split; [by eapply onclose_log|]. by eapply ad_close.
    - exists []. split; [by rewrite app_nil_r|constructor].
    - exists []. split; [by rewrite app_nil_r|constructor].
    - exists []. rewrite join_log. split; [by rewrite app_nil_r|constructor].
    - exists []. rewrite leave_log. split; [by rewrite app_nil_r|constructor].
    - exists []. split; [by rewrite app_nil_r|constructor].
    - rewrite (do_connect_eq _ a) by done. eexists. split; [done|]. by apply ad_connect.
    - exists []. rewrite cleanup_log. split; [by rewrite app_nil_r|constructor].
    - set (s' := log _ _). exists [(s'.1, ENewNsp (length (c_nsps s.1)))]. split; [done|]. by apply (ad_plain Q s s').
    - eexists. split; [by eapply create_child_log|]. apply ad_plain; [done|done|apply create_child_socks].
    - exists []. split; [by rewrite app_nil_r|constructor].
    - exists []. split; [by rewrite app_nil_r|constructor].
    - exists []. split; [by rewrite app_nil_r|constructor].
    - exists []. split; [by rewrite app_nil_r|constructor].
    - exists []. split; [by rewrite app_nil_r|constructor].
  Qed.

  (** ** Sockets and lifecycle events *)
  Definition life_ok (o : option sock) (l : list life) : Prop :=
    match o with
    | None => l = []
    | Some a =>
        if sk_connected a then ∃ ps, l = LConnect :: LConnection :: map LEvent ps
        else l = [] ∨ (sk_can_join a = false ∧ ∃ ps r, l = LConnect :: LConnection :: map LEvent ps ++ [LDisconnecting r; LDisconnect r])
    end.
  Definition invB (s : sys) : Prop := ∀ k, life_ok (c_socks s.1 !! k) (lives k s.2).
  Lemma lives_plain k e : plain e.2 → life_of k e = None.
  Proof. by destruct e as [x []]. Qed.
  (** The sockets of a transition, seen from its log. *)
  Lemma added_socks Q C D s s' : prim csr clean Q C D s s' → ∀ l, s'.2 = s.2 ++ l → added Q s s' l → ∀ k,
    match lives k l with
    | [] => c_socks s'.1 !! k = c_socks s.1 !! k ∨
            (c_socks s.1 !! k = None ∧ ∃ a, c_socks s'.1 !! k = Some a ∧ sk_connected a = false) ∨
            (∃ a, c_socks s.1 !! k = Some a ∧ sk_connected a = false ∧ sk_can_join a = true ∧ c_socks s'.1 !! k = Some (sk_set false false a))
    | _ => True
    end.
  Proof.
    intros P l El Hl k. destruct P; try (destruct (lives k l); [|done]; left; rewrite ?join_socks, ?leave_socks, ?create_child_socks; done).
    - destruct H; try (destruct (lives k l); [|done]; left; done).
      rewrite (onclose_log csr clean _ _ _ a) in El by done. apply app_inv_head in El. subst l.
      unfold close_logs. destruct (decide (k0 = k)) as [->|Hne]; cbn; [by rewrite decide_True|].
      rewrite decide_False by done. match goal with |- match ?t with _ => _ end => destruct t; [|done] end. left. rewrite (onclose_socks csr clean _ _ _ a) by done. by rewrite list_lookup_alter_ne.
    - destruct (lives k l); [|done]. cbn. destruct (decide (k = length (c_socks s.1))) as [->|Hne].
      + right; left. split; [by apply lookup_ge_None|]. exists a. by rewrite lookup_app_r, Nat.sub_diag.
      + left. destruct (decide (k < length (c_socks s.1))); [by rewrite lookup_app_l|].
        rewrite !lookup_ge_None_2; rewrite ?app_length; cbn; lia || done.
    - rewrite (do_connect_eq _ a) in El by done. cbn in El. apply app_inv_head in El. subst l. cbn. destruct (decide (k0 = k)) as [->|Hne]; [done|].
      left. rewrite (do_connect_eq _ a) by done. cbn. by rewrite list_lookup_alter_ne.
    - destruct (lives k l); [|done]. rewrite cleanup_socks. destruct (decide (k0 = k)) as [->|Hne]; [|left; by rewrite list_lookup_alter_ne].
      right; right. exists a. split_and!; try done. rewrite list_lookup_alter, H0. cbn. by rewrite H1.
  Qed.
  Lemma invB_prim Q C D s s' : prim csr clean Q C D s s' → invA s.1 → invB s → invB s'.
  Proof.
    intros P A B k. destruct (prim_added _ _ _ _ _ P) as (l & El & Hl). rewrite El, lives_app.
    pose proof (added_socks _ _ _ _ _ P l El Hl k) as Hk. specialize (B k).
    destruct (lives k l) as [|e0 l0] eqn:Ek.
    - rewrite app_nil_r. destruct Hk as [->|[[E (a & -> & Ha)]|(a & E & Ha & Hj & ->)]]; [done| |].
      + rewrite E in B. cbn in *. rewrite Ha. by left.
      + rewrite E in B. cbn in *. rewrite Ha in B. destruct B as [B|[B _]]; [by left|congruence].
    - clear Hk. destruct Hl as [|e He|j a p HQ Ej Ea Es|j a fns Ej Ea Ejj Ejo Es ->|os reason j a HQ Hos Ej Ea Es].
      + done.
      + exfalso. cbn in Ek. rewrite lives_plain in Ek by done. done.
      + cbn in Ek. destruct (decide (j = k)) as [->|]; [|done]. injection Ek as <- <-. rewrite Es. rewrite Ej in *. cbn in *. rewrite Ea in *.
        destruct B as (ps & ->). exists (ps ++ [p]). by rewrite map_app.
      + cbn in Ek. destruct (decide (j = k)) as [->|]; [|done]. injection Ek as <- <-. rewrite Ej in B. cbn in B. rewrite Ea in B.
        destruct B as [->|[B _]]; [|congruence]. rewrite Es. cbn. rewrite list_lookup_alter, Ej. cbn. by exists [].
      + subst s'. unfold close_logs in Ek. rewrite (onclose_socks csr clean _ _ _ a) by done.
        assert (e0 :: l0 = [LDisconnecting reason; LDisconnect reason] ∧ j = k) as [-> ->].
        { destruct (csr && _); cbn in Ek; destruct (decide (j = k)) as [->|]; done. }
        rewrite list_lookup_alter, Ej. rewrite Ej in B. cbn in *. rewrite Ea in B. right. split; [done|]. destruct B as (ps & ->). by exists ps, reason.
  Qed.
  Lemma run_B h : envok h → invA (srun h).1 ∧ invB (srun h).
  Proof. apply run_inv; [by intros k|]. intros s s' P A B. by eapply invB_prim. Qed.

  (** ** Later states *)
  Lemma run_rtc h1 h2 : envok (h1 ++ h2) → rtc anyprim (srun h1) (srun (h1 ++ h2)).
  Proof.
    induction h2 as [|e h2 IH] using rev_ind; [by rewrite app_nil_r|]. rewrite app_assoc. intros [He Ho]%env_snoc.
    rewrite run_snoc. etrans; [by apply IH|]. apply step_prims_any; [done|]. by apply run_B.
  Qed.
  Lemma run_grows h1 h2 : envok (h1 ++ h2) → grows (c_socks (srun h1).1) (c_socks (srun (h1 ++ h2)).1).
  Proof. intros. eapply rtc_socks. by apply run_rtc. Qed.
  Lemma closed_stays h1 h2 k : envok (h1 ++ h2) → closed (srun h1).1 k → closed (srun (h1 ++ h2)).1 k.
  Proof.
    intros He (a & Ek & Ec & Ej). destruct (run_grows h1 h2 He k a Ek) as (b & Eb & L).
    pose proof (la_dead _ _ L Ec Ej) as ->. by exists a.
  Qed.
  (** Nothing is added to the life of a closed socket. *)
  Lemma closed_lives_prim Q C D k s s' : prim csr clean Q C D s s' → closed s.1 k → lives k s'.2 = lives k s.2.
  Proof.
    intros P (b & Eb & Ec & Ej). destruct (prim_added _ _ _ _ _ P) as (l & -> & Hl). rewrite lives_app.
    assert (lives k l = []) as ->; [|by rewrite app_nil_r].
    destruct Hl as [|e He|j a p HQ E1 E2 Es|j a fns E1 E2 E3 Ho Es ->|os reason j a HQ Hos E1 E2 Es]; [done|..].
    - cbn. by rewrite lives_plain.
    - assert (j ≠ k) by (intros ->; congruence). cbn. by rewrite !decide_False.
    - assert (j ≠ k) by (intros ->; congruence). cbn. by rewrite !decide_False.
    - assert (j ≠ k) by (intros ->; congruence). unfold close_logs. destruct (csr && _); cbn; by rewrite !decide_False.
  Qed.
  Lemma closed_prim Q C D k s s' : prim csr clean Q C D s s' → closed s.1 k → closed s'.1 k.
  Proof.
    intros P (a & Ek & Ec & Ej). destruct (prim_socks _ _ _ _ _ _ _ P k a Ek) as (b & Eb & L).
    pose proof (la_dead _ _ L Ec Ej) as ->. by exists a.
  Qed.
  Lemma closed_lives h1 h2 k : envok (h1 ++ h2) → closed (srun h1).1 k → lives k (srun (h1 ++ h2)).2 = lives k (srun h1).2.
  Proof.
    intros He. pose proof (run_rtc _ _ He) as Hr. revert Hr. generalize (srun h1), (srun (h1 ++ h2)). clear.
    induction 1 as [|s1 s2 s3 P _ IH]; [done|]. intros Hc. rewrite IH; [by eapply closed_lives_prim|by eapply closed_prim].
  Qed.
  Lemma closed_not_listed x k : invA x → closed x k → ¬ listed x k ∧ ¬ (∃ c i, csocks_of x c !! i = Some k).
  Proof.
    intros A (a & Ek & Ec & _). split.
    - intros (n & i & H). destruct (ia_nsock _ A _ _ _ H) as (b & Hb & _ & _ & Hc). congruence.
    - intros (c & i & H). destruct (ia_csock _ A _ _ _ H) as (b & Hb & _ & _ & Hc). congruence.
  Qed.
  Lemma closed_no_rooms x k : invA x → closed x k → sole x k → rooms_sock x k = ∅.
  Proof.
    intros A (a & Ek & Ec & Ej) Hs. unfold rooms_sock. rewrite Ek. unfold rooms_of.
    destruct (rg_sids (reg_of x (sk_nsp a)) !! sk_id a) as [rs|] eqn:E; [|done]. exfalso.
    destruct (ia_room _ A (sk_nsp a) (sk_id a)) as (j & b & Hb & E1 & E2 & E3); [by eexists|].
    pose proof (Hs j a b Ek Hb E3 E1 E2) as ->. congruence.
  Qed.

  (** ** Names of namespaces do not change *)
  Definition nsps_grow (l l' : list nspc) : Prop := ∀ n np, l !! n = Some np →
    ∃ np', l' !! n = Some np' ∧ np_name np' = np_name np ∧ np_parent np' = np_parent np.
  Lemma nsps_grow_refl l : nsps_grow l l.
  Proof. intros n np H. by exists np. Qed.
  Lemma nsps_grow_trans l1 l2 l3 : nsps_grow l1 l2 → nsps_grow l2 l3 → nsps_grow l1 l3.
  Proof. intros H1 H2 n np (np1 & E1 & E2 & E3)%H1. destruct (H2 _ _ E1) as (np2 & ? & ? & ?). exists np2. split_and!; congruence. Qed.
  Lemma nsps_grow_alter f n l : (∀ np, np_name (f np) = np_name np ∧ np_parent (f np) = np_parent np) → nsps_grow l (alter f n l).
  Proof.
    intros H j np Hj. rewrite alter_lookup. case_decide; [|by exists np]. rewrite Hj. cbn. exists (f np). split; [done|]. apply H.
  Qed.
  Lemma nsps_grow_app l l' : nsps_grow l (l ++ l').
  Proof. intros n np H. exists np. split; [by apply lookup_app_l_Some|done]. Qed.
  Lemma prim_nsps Q C D s s' : prim csr clean Q C D s s' → nsps_grow (c_nsps s.1) (c_nsps s'.1).
  Proof.
    intros P. destruct P; try apply nsps_grow_refl.
    - destruct H; try apply nsps_grow_refl. rewrite (onclose_nsps _ _ _ _ _ a) by done. by apply nsps_grow_alter.
    - unfold join. destruct (c_socks s.1 !! k) as [b|]; [|apply nsps_grow_refl]. destruct (sk_can_join b); [|apply nsps_grow_refl].
      by apply nsps_grow_alter.
    - unfold leave. destruct (c_socks s.1 !! k) as [b|]; [|apply nsps_grow_refl]. by apply nsps_grow_alter.
    - rewrite (do_connect_eq _ a) by done. by apply nsps_grow_alter.
    - rewrite (cleanup_nsps _ _ _ a) by done. by apply nsps_grow_alter.
    - apply nsps_grow_app.
    - unfold create_child. rewrite H1. cbn. apply nsps_grow_app.
    - by apply nsps_grow_alter.
    - by apply nsps_grow_alter.
  Qed.
  Lemma rtc_nsps Q C D s s' : rtc (prim csr clean Q C D) s s' → nsps_grow (c_nsps s.1) (c_nsps s'.1).
  Proof. induction 1; [apply nsps_grow_refl|]. eapply nsps_grow_trans; [by eapply prim_nsps|done]. Qed.
  Lemma nsps_grow_name x y n : nsps_grow (c_nsps x) (c_nsps y) → n < length (c_nsps x) → name_of y n = name_of x n.
  Proof.
    intros H [np Hn]%lookup_lt_is_Some. destruct (H _ _ Hn) as (np' & Hn' & E & _). unfold name_of. by rewrite Hn, Hn', E.
  Qed.
  Lemma name_sock x y k a : invA x → nsps_grow (c_nsps x) (c_nsps y) → c_socks x !! k = Some a → name_of y (sk_nsp a) = name_of x (sk_nsp a).
  Proof. intros A H Hk. apply nsps_grow_name; [done|]. by eapply (ia_wf _ A). Qed.

  (** ** The tables of a client *)
  Lemma cnsps_alter f c x c' : (∀ cl, cl_nsps (f cl) = cl_nsps cl) → cnsps_of (set_clients (alter f c (c_clients x)) x) c' = cnsps_of x c'.
  Proof. intros H. unfold cnsps_of. cbn. rewrite alter_lookup. case_decide; [subst|done]. destruct (c_clients x !! c); cbn; auto. Qed.
  Lemma remove_cnsps os k a s c : c_socks s.1 !! k = Some a →
    cnsps_of (client_remove k (cleanup clean os k s)).1 c =
      match csocks_of s.1 (sk_client a) !! sk_id a with
      | Some j => if decide (c = sk_client a)
                  then delete (match c_socks s.1 !! j with Some b => name_of s.1 (sk_nsp b) | None => "" end) (cnsps_of s.1 c)
                  else cnsps_of s.1 c
      | None => cnsps_of s.1 c
      end.
  Proof.
    intros E. unfold client_remove. rewrite cleanup_socks, list_lookup_alter, E. cbn [fmap option_fmap option_map sk_client sk_id sk_set].
    assert (∀ c, csocks_of (cleanup clean os k s).1 c = csocks_of s.1 c) as -> by (intros c'; unfold csocks_of; by rewrite cleanup_clients).
    assert (∀ n, name_of (cleanup clean os k s).1 n = name_of s.1 n) as Hn.
    { intros n. unfold name_of. rewrite (cleanup_nsps _ _ _ a) by done. rewrite alter_lookup. case_decide; [|done]. by destruct (c_nsps s.1 !! n). }
    destruct (csocks_of s.1 (sk_client a) !! sk_id a) as [j|] eqn:Ej; [|unfold cnsps_of; by rewrite cleanup_clients].
    unfold cnsps_of. cbn. rewrite alter_lookup, cleanup_clients. case_decide; [|done].
    destruct (c_clients s.1 !! c); cbn; [|by rewrite delete_empty]. f_equal. rewrite alter_lookup.
    case_decide; [|by destruct (c_socks s.1 !! j)]. subst. rewrite E. cbn. done.
  Qed.
  Lemma onclose_cnsps os reason k a s c : c_socks s.1 !! k = Some a → sk_connected a = true →
    cnsps_of (onclose csr clean os reason k s).1 c =
      match csocks_of s.1 (sk_client a) !! sk_id a with
      | Some j => if decide (c = sk_client a)
                  then delete (match c_socks s.1 !! j with Some b => name_of s.1 (sk_nsp b) | None => "" end) (cnsps_of s.1 c)
                  else cnsps_of s.1 c
      | None => cnsps_of s.1 c
      end.
  Proof.
    intros E Ec. rewrite (onclose_eq csr clean os reason k a) by done. rewrite onclose_pre.
    exact (remove_cnsps os k a (s.1, s.2 ++ close_logs csr reason k s.1) c E).
  Qed.
  (** A namespace of the table of a client leads to a connected socket of it. *)
  Definition invN (x : core) : Prop := ∀ c m k, cnsps_of x c !! m = Some k →
    joined x c m k ∧ ∀ a, c_socks x !! k = Some a → is_Some (csocks_of x c !! sk_id a).
  Lemma invN_frame x y : invA x → (∀ c, cnsps_of y c = cnsps_of x c) → (∀ c, csocks_of y c = csocks_of x c) →
    (∀ k a, c_socks x !! k = Some a → sk_connected a = true → c_socks y !! k = Some a) → nsps_grow (c_nsps x) (c_nsps y) →
    invN x → invN y.
  Proof.
    intros A E1 E2 E3 E4 N c m k. rewrite E1. intros [(a & Ha & Hc & Hcl & Hn) H]%N. split.
    - exists a. split_and!; [by apply E3|done..|]. rewrite <- Hn. by eapply name_sock.
    - intros b Hb. rewrite E2. apply H. rewrite (E3 k a) in Hb by done. injection Hb as <-. done.
  Qed.
  Lemma prim_ids Q C D s s' : prim csr clean Q C D s s' → invA s.1 → ids_ok s'.1 → ids_ok s.1.
  Proof.
    intros P A H j k a b Hj Hk E. pose proof (prim_nsps _ _ _ _ _ P) as Hn.
    destruct (prim_socks _ _ _ _ _ _ _ P j a Hj) as (a' & Ha' & La). destruct (prim_socks _ _ _ _ _ _ _ P k b Hk) as (b' & Hb' & Lb).
    rewrite <- (name_sock _ _ _ _ A Hn Hj), <- (name_sock _ _ _ _ A Hn Hk), <- (la_nsp _ _ La), <- (la_nsp _ _ Lb).
    eapply H; [done..|]. by rewrite (la_id _ _ La), (la_id _ _ Lb).
  Qed.
  Lemma invN_prim Q C D s s' : prim csr clean Q C D s s' → invA s.1 → ids_ok s.1 → invN s.1 → invN s'.1.
  Proof.
    intros P A I N. pose proof (prim_nsps _ _ _ _ _ P) as Hn. pose proof (prim_socks _ _ _ _ _ _ _ P) as Hs. destruct P;
      try (apply (invN_frame s.1); first [exact A|exact N|exact Hn|done]).
    - destruct H; try (apply (invN_frame s.1); first [exact A|exact N|exact Hn|done]).
      + apply (invN_frame s.1); try done; intros c'; [by apply cnsps_alter|by apply csocks_alter].
      + apply (invN_frame s.1); try done; intros c'; [by apply cnsps_alter|by apply csocks_alter].
      + intros c m j. rewrite (onclose_cnsps _ _ _ a) by done. intros Hj.
        assert (cnsps_of s.1 c !! m = Some j) as Hj0.
        { destruct (csocks_of s.1 (sk_client a) !! sk_id a); [|done]. case_decide; [|done]. by apply lookup_delete_Some in Hj as [_ ?]. }
        destruct (N _ _ _ Hj0) as [(b & Hb & Hbc & Hbl & Hbn) Hcs]. specialize (Hcs b Hb).
        assert (sk_client a = c → sk_id a ≠ sk_id b) as Hdiff.
        { intros Hc Hid. assert (m = name_of s.1 (sk_nsp a)) as Hm by (rewrite <- Hbn; by eapply I).
          destruct Hcs as [j' Hj']. rewrite Hc, Hid, Hj', decide_True in Hj by done.
          apply lookup_delete_Some in Hj as [Hne _]. apply Hne. destruct (ia_csock _ A _ _ _ Hj') as (b' & Hb' & Hi & _ & _).
          rewrite Hb'. rewrite <- Hbn. by eapply I. }
        assert (j ≠ k) as Hjk by (intros ->; rewrite H1 in Hb; injection Hb as ->; by apply Hdiff).
        rewrite (onclose_socks csr clean _ _ _ a), list_lookup_alter_ne by done. split.
        * exists b. rewrite (onclose_socks csr clean _ _ _ a), list_lookup_alter_ne by done. split_and!; try done.
          rewrite <- Hbn. by eapply name_sock.
        * intros b' Hb'. rewrite Hb in Hb'. injection Hb' as <-. rewrite (onclose_csocks csr clean _ _ _ a) by done.
          case_decide; [|done]. rewrite lookup_delete_ne; [done|]. by apply Hdiff.
    - apply (invN_frame s.1); try done; intros c'.
      + unfold cnsps_of. cbn. destruct (decide (c' < length (c_clients s.1))); [by rewrite lookup_app_l|].
        rewrite lookup_app_r by lia. rewrite (lookup_ge_None_2 (c_clients s.1)) by lia. by destruct (c' - _) as [|[]].
      + unfold csocks_of. cbn. destruct (decide (c' < length (c_clients s.1))); [by rewrite lookup_app_l|].
        rewrite lookup_app_r by lia. rewrite (lookup_ge_None_2 (c_clients s.1)) by lia. by destruct (c' - _) as [|[]].
    - unfold join in *. destruct (c_socks s.1 !! k) as [b|]; [|done]. destruct (sk_can_join b); [|done].
      by apply (invN_frame s.1).
    - unfold leave in *. destruct (c_socks s.1 !! k) as [b|]; [|done]. by apply (invN_frame s.1).
    - apply (invN_frame s.1); try done. intros k b Hk _. by apply lookup_app_l_Some.
    - assert (Hi : name_of (conn2 a k s.1) (sk_nsp a) = name_of s.1 (sk_nsp a)).
      { rewrite (do_connect_eq _ a) in Hn by done. by eapply name_sock. }
      rewrite (do_connect_eq _ a) in * by done. cbn [fst] in *. intros c m j.
      assert (∀ j b, c_socks s.1 !! j = Some b → j ≠ k → c_socks (conn2 a k s.1) !! j = Some b) as Hsk.
      { intros j0 b0 H3 H4. cbn. by rewrite list_lookup_alter_ne. }
      assert (c_socks (conn2 a k s.1) !! k = Some (sk_set true true a)) as Hkk by (cbn; by rewrite list_lookup_alter, H).
      assert (is_Some (c_clients s.1 !! sk_client a)) as [cl Hcl].
      { unfold is_open in H2. destruct (c_clients s.1 !! sk_client a); [by eexists|done]. }
      assert (cnsps_of (conn2 a k s.1) c = if decide (c = sk_client a) then <[name_of s.1 (sk_nsp a) := k]> (cnsps_of s.1 c) else cnsps_of s.1 c) as ->.
      { unfold cnsps_of. cbn. rewrite alter_lookup. case_decide; [subst|done]. by rewrite Hcl. }
      assert (csocks_of (conn2 a k s.1) c = if decide (c = sk_client a) then <[sk_id a := k]> (csocks_of s.1 c) else csocks_of s.1 c) as ->.
      { unfold csocks_of. cbn. rewrite alter_lookup. case_decide; [subst|done]. by rewrite Hcl. }
      intros Hj.
      assert (cnsps_of s.1 c !! m = Some j ∨ (c = sk_client a ∧ m = name_of s.1 (sk_nsp a) ∧ j = k)) as [Hj0|(-> & -> & ->)].
      { case_decide; [|by left]. apply lookup_insert_Some in Hj as [[<- <-]|[_ ?]]; [by right|by left]. }
      + destruct (N _ _ _ Hj0) as [(b & Hb & Hbc & Hbl & Hbn) Hcs]. specialize (Hcs b Hb).
        assert (j ≠ k) as Hjk by (intros ->; congruence). split.
        * exists b. split_and!; [by apply Hsk|done..|]. rewrite <- Hbn. by eapply name_sock.
        * intros b'. rewrite (Hsk j b) by done. intros [= <-]. case_decide; [|done]. rewrite lookup_insert_is_Some. destruct (decide (sk_id a = sk_id b)); auto.
      + split.
        * eexists. by split_and!.
        * intros b. rewrite Hkk. intros [= <-]. cbn. rewrite decide_True by done. rewrite lookup_insert. by eexists.
    - apply (invN_frame s.1); try done.
      + intros c. unfold cnsps_of. by rewrite cleanup_clients.
      + intros c. unfold csocks_of. by rewrite cleanup_clients.
      + intros j b Hj Hb. rewrite cleanup_socks, list_lookup_alter_ne; [done|]. intros ->. congruence.
    - unfold create_child in *. rewrite H1 in *. by apply (invN_frame s.1).
  Qed.
  Lemma run_N h : envok h → ids_ok (srun h).1 → invN (srun h).1.
  Proof.
    intros He. destruct (run_inv csr skip clean (λ s, ids_ok s.1 → invN s.1)) with h as [_ H]; [..|done].
    - intros _ c m k. by destruct c.
    - intros s s' P A IH I. apply prim_ids in P as I0; [|done..]. eapply invN_prim; [done..|]. by apply IH.
    - done.
  Qed.

  (** ** Order and state of the lifecycle effects *)
  Definition fact (l1 : list (core * eff)) (x : core) (e : eff) (l2 : list (core * eff)) : Prop :=
    match e with
    | EWrite c p => p_type p = CONNECT → ∃ k a y fns l3, l2 = (y, EConnect k fns) :: (y, EConnection k) :: l3 ∧
        welcomed x k a ∧ sk_client a = c ∧ p_nsp p = name_of x (sk_nsp a) ∧ (p_data p = [] ∨ p_data p = [VStr (sk_id a)]) ∧ tabled y k a
    | EConnect k fns => ∃ l0 x0 p a l3, l1 = l0 ++ [(x0, EWrite (sk_client a) p)] ∧ p_type p = CONNECT ∧ l2 = (x, EConnection k) :: l3 ∧
        welcomed x k a ∧ tabled x k a ∧ fns = (match c_nsps x !! sk_nsp a with Some n => np_on n | None => [] end)
    | EConnection k => ∃ l0 fns, l1 = l0 ++ [(x, EConnect k fns)]
    | EDispatch k p => connected x k
    | EDisconnecting k r => connected x k ∧ ∃ l0 y l3, l2 = l0 ++ (y, EDisconnect k r) :: l3 ∧ (l0 = [] ∨ l0 = [(x, EPersist k)])
    | EDisconnect k r => closed x k ∧ rooms_sock x k = ∅ ∧
        ∀ a, c_socks x !! k = Some a → socks_of x (sk_nsp a) !! sk_id a = None ∧ csocks_of x (sk_client a) !! sk_id a = None
    | _ => True
    end.
  Definition facts (l : list (core * eff)) : Prop := ∀ l1 x e l2, l = l1 ++ (x, e) :: l2 → fact l1 x e l2.
  Lemma fact_more l1 x e l2 l3 : fact l1 x e l2 → fact l1 x e (l2 ++ l3).
  Proof.
    destruct e; cbn; try done.
    - intros H Hp. destruct (H Hp) as (k & a & y & fns & l4 & -> & H'). exists k, a, y, fns, (l4 ++ l3). done.
    - intros (l0 & x0 & p & a & l4 & -> & Hp & -> & H). exists l0, x0, p, a, (l4 ++ l3). done.
    - intros [Hc (l0 & y & l4 & -> & Hl)]. split; [done|]. exists l0, y, (l4 ++ l3). by rewrite <- app_assoc.
  Qed.
  Lemma app_cases {A} (l b l1 l2 : list A) e : l ++ b = l1 ++ e :: l2 →
    (∃ t, l2 = t ++ b ∧ l = l1 ++ e :: t) ∨ (∃ t, l1 = l ++ t ∧ b = t ++ e :: l2).
  Proof.
    intros H. apply app_eq_inv in H as [(t & E1 & E2)|(t & E1 & E2)].
    - destruct t as [|e' t].
      + right. exists []. rewrite app_nil_r in *. cbn in E2. by rewrite E2, E1.
      + left. exists t. cbn in E2. injection E2 as -> ->. done.
    - right. exists t. done.
  Qed.
  Lemma conn1_welcomed a k x : c_socks x !! k = Some a → sk_can_join a = true → sk_nsp a < length (c_nsps x) → welcomed (conn1 a k x) k (sk_set true true a).
  Proof.
    intros E Ej [np Hn]%lookup_lt_is_Some.
    assert (c_socks (conn1 a k x) !! k = Some (sk_set true true a)) as Ek by (cbn; by rewrite list_lookup_alter, E).
    split_and!; try done.
    - unfold socks_of. cbn. rewrite list_lookup_alter, Hn. cbn. apply lookup_insert.
    - unfold rooms_sock. rewrite Ek. unfold reg_of. cbn. rewrite list_lookup_alter, Hn. cbn. apply add_all_rooms_of. right. split; [done|].
      apply elem_of_remove_dups, elem_of_list_singleton. done.
  Qed.
  Lemma conn2_tabled a k x : c_socks x !! k = Some a → is_open x (sk_client a) = true → sk_nsp a < length (c_nsps x) → tabled (conn2 a k x) k (sk_set true true a).
  Proof.
    intros E Ho [np Hn]%lookup_lt_is_Some. unfold is_open in Ho. destruct (c_clients x !! sk_client a) as [cl|] eqn:Hcl; [|done].
    unfold tabled, csocks_of, cnsps_of, name_of. cbn. rewrite !list_lookup_alter, Hcl, Hn. cbn. rewrite !lookup_insert. split; [done|]. unfold name_of. rewrite Hn. apply lookup_insert.
  Qed.
  Lemma facts_app s s' l : prim csr clean (λ _ _, True) (λ _ _, True) (λ _, True) s s' → invA s.1 → added (λ _ _, True) s s' l → s'.2 = s.2 ++ l → facts s.2 → facts s'.2.
  Proof.
    intros P A Hl El F l1 x e l2 H. rewrite El in H. apply app_cases in H as [(t & -> & H)|(t & -> & H)].
    { apply fact_more. by apply F. }
    pose proof (invA_prim _ _ _ _ _ _ _ P A) as A'.
    destruct Hl as [|e0 He|j a p HQ E1 E2 Es|j a fns E1 E2 E3 Ho Es ->|os reason j a HQ Hos E1 E2 Es].
    - by destruct t.
    - destruct t as [|? [|]]; [|done..]. injection H as <- -> ->. destruct e; cbn in *; done.
    - destruct t as [|? [|]]; [|done..]. injection H as <- <- <-. by exists a.
    - assert (sk_nsp a < length (c_nsps s.1)) as Hn by (by eapply (ia_wf _ A)).
      pose proof (conn1_welcomed a j s.1 E1 E3 Hn) as W. pose proof (conn2_tabled a j s.1 E1 Ho Hn) as T.
      destruct t as [|? [|? [|? []]]]; [..|done|done].
      + injection H as <- <- <-. intros _. eexists j, _, s'.1, _, []. split_and!; try done.
        * unfold hello. cbn. unfold name_of. cbn. rewrite list_lookup_alter. by destruct (c_nsps s.1 !! sk_nsp a).
        * unfold hello. cbn. destruct (match c_clients s.1 !! sk_client a with Some cl => cl_p3 cl | None => false end); auto.
        * by rewrite Es.
      + injection H as <- <- <- <-. eexists s.2, _, _, (sk_set true true a), []. split_and!; try done.
        * by rewrite Es.
        * by rewrite Es.
        * rewrite Es. cbn. rewrite list_lookup_alter. by destruct (c_nsps s.1 !! sk_nsp a).
      + injection H as <- <- <- <- <-. eexists (s.2 ++ [_]), _. by rewrite <- app_assoc.
    - pose proof (onclose_socks csr clean os reason j a s E1 E2) as Hsk.
      assert (fact (s.2 ++ close_logs csr reason j s.1) s'.1 (EDisconnect j reason) []) as FD.
      { assert (c_socks s'.1 !! j = Some (sk_set false false a)) as Hj.
        { subst s'. by rewrite (onclose_socks csr clean _ _ _ a), list_lookup_alter, E1. }
        assert (socks_of s'.1 (sk_nsp a) !! sk_id a = None ∧ rg_sids (reg_of s'.1 (sk_nsp a)) !! sk_id a = None) as [H1 H2].
        { subst s'. unfold socks_of, reg_of. rewrite (onclose_nsps csr clean _ _ _ a) by done. rewrite list_lookup_alter.
          destruct (c_nsps s.1 !! sk_nsp a) as [np|]; [|done]. cbn. rewrite del_all_sids, !lookup_delete. done. }
        split_and!.
        - by eexists.
        - unfold rooms_sock. rewrite Hj. cbn. unfold rooms_of. by rewrite H2.
        - intros b. rewrite Hj. intros [= <-]. split; [done|]. cbn. subst s'. rewrite (onclose_csocks csr clean _ _ _ a) by done.
          rewrite decide_True by done. apply lookup_delete. }
      unfold close_logs in *. destruct (csr && bool_decide (reason ∈ recoverable_reasons)).
      + destruct t as [|? [|? [|? []]]]; [..|done|done].
        * injection H as <- <- <-. split; [by exists a|]. eexists [_], _, []. split; [done|]. by right.
        * injection H as <- <- <- <-. done.
        * injection H as <- <- <- <- <-. done.
      + destruct t as [|? [|? []]]; [..|done|done].
        * injection H as <- <- <-. split; [by exists a|]. eexists [], _, []. split; [done|]. by left.
        * injection H as <- <- <- <-. done.
  Qed.
  Lemma run_facts h : envok h → facts (srun h).2.
  Proof.
    intros He. destruct (run_inv csr skip clean (λ s, facts s.2)) with h as [_ H]; [..|done|done].
    - intros l1 x e l2 H. by destruct l1.
    - intros s s' P A F. destruct (prim_added _ _ _ _ _ P) as (l & El & Hl). by eapply facts_app.
  Qed.
End life.
