(** Proofs for C73. *)
From Verif Require Import Base TimerConc.

Global Instance tpc_eq_dec : EqDecision tpc.
Proof. solve_decision. Defined.

Section proofs.
  Context (ts : list tcall).
  Lemma trun_snoc s i : trun ts (s ++ [i]) = tstep (trun ts s) i.
  Proof. unfold trun. by rewrite foldl_app. Qed.
  Lemma trun_app s1 s2 : trun ts (s1 ++ s2) = foldl tstep (trun ts s1) s2.
  Proof. unfold trun. by rewrite foldl_app. Qed.
  Lemma elem_ins {A} (l : list A) i x y z : l !! i = Some x → z ∈ <[i := y]> l → z = y ∨ z ∈ l.
  Proof.
    intros Hi [j Hj]%elem_of_list_lookup. destruct (decide (j = i)) as [->|].
    - rewrite list_lookup_insert in Hj by (by eapply lookup_lt_Some). injection Hj as <-. by left.
    - rewrite list_lookup_insert_ne in Hj by done. right. by eapply elem_of_list_lookup_2.
  Qed.
  Lemma elem_ins_other {A} (l : list A) i x y z : l !! i = Some x → z ∈ l → z = x ∨ z ∈ <[i := y]> l.
  Proof.
    intros Hi [j Hj]%elem_of_list_lookup. destruct (decide (j = i)) as [->|].
    - left. congruence.
    - right. apply elem_of_list_lookup. exists j. by rewrite list_lookup_insert_ne.
  Qed.
  Lemma elem_ins_self {A} (l : list A) i x y : l !! i = Some x → y ∈ <[i := y]> l.
  Proof. intros Hi. apply elem_of_list_lookup. exists i. apply list_lookup_insert. by eapply lookup_lt_Some. Qed.

  Lemma threads_run s : (t_threads (trun ts s)).*1 = ts.
  Proof.
    induction s as [|i s IH] using rev_ind; [cbn; rewrite <-list_fmap_compose; by rewrite list_fmap_id|]. rewrite trun_snoc. unfold tstep.
    destruct (t_threads (trun ts s) !! i) as [[t p]|] eqn:Hi; [|done]. cbn. rewrite list_fmap_insert, IH. cbn. apply list_insert_id. rewrite <- IH. by rewrite list_lookup_fmap, Hi.
  Qed.
  Lemma in_ts s t p : (t, p) ∈ t_threads (trun ts s) → t ∈ ts.
  Proof. intros H. rewrite <- (threads_run s). apply elem_of_list_fmap. by exists (t, p). Qed.

  (** Which points a call passes. *)
  Definition tvalid (t : tcall) (p : tpc) : bool :=
    match t, p with
    | _, XStart | _, XEnd => true
    | TSetup, XStore => true
    | TFire, (XLen | XReady | XHang | XLoad | XClear | XNil) => true
    | TAdmit _, (XWrite | XNsps | XLoad | XClear | XNil | XSay) => true
    | TDown, (XLoad | XClear | XNil) => true
    | _, _ => false
    end.
  Definition hung (p : tpc) : bool := match p with XLoad | XClear | XNil | XEnd => true | _ => false end.
  (** What holds at all times. *)
  Record tinv (c : tconf) : Prop := {
    ti_valid : ∀ t p, (t, p) ∈ t_threads c → tvalid t p = true;
    ti_stored : (TSetup, XEnd) ∈ t_threads c → t_ptr (t_state c) = true ∨ t_live (t_state c) = false;
    ti_nil : ∀ t, (t, XNil) ∈ t_threads c → t_live (t_state c) = false;
    ti_said : ∀ n, VAnnounced n ∈ t_log c → (TAdmit n, XEnd) ∈ t_threads c;
    ti_hang : VHang ∈ t_log c → ∃ p, (TFire, p) ∈ t_threads c ∧ hung p = true }.
  Lemma tinv_step c i : tinv c → tinv (tstep c i).
  Proof.
    intros [V S N A H]. unfold tstep. destruct (t_threads c !! i) as [[t p]|] eqn:Hi; [|by constructor].
    pose proof (elem_of_list_lookup_2 _ _ _ Hi) as Hin. destruct c as [s l L]. cbn [t_state t_threads t_log] in *. pose proof (V t p Hin) as Hv.
    assert (∀ p' s' L', tvalid t p' = true → (t_live s = false → t_live s' = false) → (t_ptr s = true → t_ptr s' = true ∨ t_live s' = false) →
      (t = TSetup → p' = XEnd → p ≠ XEnd → t_ptr s' = true ∨ t_live s' = false) → (p' = XNil → t_live s' = false) →
      (∀ n, VAnnounced n ∈ L' → t = TAdmit n ∧ p' = XEnd) → (VHang ∈ L' → t = TFire ∧ hung p' = true) → (p = XEnd → p' = XEnd) → (t = TFire → hung p = true → hung p' = true) →
      tinv (TConf s' (<[i := (t, p')]> l) (L ++ L'))) as K.
    { intros p' s' L' K0 K1 K2 K3 K4 K5 K6 K7 K8. constructor; cbn [t_state t_threads t_log].
      - intros t' q [[= -> ->]|?]%(elem_ins _ _ _ _ _ Hi); [done|by apply V].
      - intros [[= <- <-]|Hx]%(elem_ins _ _ _ _ _ Hi).
        + destruct (decide (p = XEnd)) as [->|]; [|by apply K3]. destruct (S Hin); auto.
        + destruct (S Hx); auto.
      - intros t' [[= -> <-]|Hx]%(elem_ins _ _ _ _ _ Hi); [by apply K4|]. apply K1. by eapply N.
      - intros n [Hx|[-> ->]%K5]%elem_of_app; [|by eapply elem_ins_self].
        destruct (elem_ins_other _ _ _ (t, p') _ Hi (A n Hx)) as [[= <- <-]|?]; [|done]. rewrite K7 by done. by eapply elem_ins_self.
      - intros [Hx|[-> ?]%K6]%elem_of_app; [|exists p'; split; [by eapply elem_ins_self|done]].
        destruct (H Hx) as (q & Hq & Hh). destruct (elem_ins_other _ _ _ (t, p') _ Hi Hq) as [[= <- <-]|?]; [|eauto].
        exists p'. split; [by eapply elem_ins_self|auto]. }
    unfold tstep1.
    Local Ltac kk K := apply K; cbn; try done; auto; try (by intros ? ?%elem_of_nil); try (by intros ?%elem_of_nil).
    destruct p; cbn [fst snd].
    - destruct t; cbn [fst snd]; try (kk K; fail).
      + destruct (t_set s), (t_live s) eqn:El; kk K.
      + destruct (t_open s); kk K.
    - destruct t; try done. kk K.
    - destruct t; try done. destruct (decide _); kk K.
    - destruct t; try done. destruct (t_open s); kk K.
    - destruct t; try done. kk K. by intros n ?%elem_of_list_singleton.
    - destruct (t_ptr s) eqn:Hp; destruct t; try done; kk K.
    - destruct t; try done; kk K.
    - pose proof (N _ Hin) as Hl. destruct t; try done; kk K.
    - destruct t; try done. destruct (t_open s); kk K; [by intros ? ?%elem_of_list_singleton|by intros ?%elem_of_list_singleton].
    - destruct t; try done. kk K.
    - destruct t; try done. kk K; [by intros ? [= ->]%elem_of_list_singleton|by intros ?%elem_of_list_singleton].
    - kk K.
  Qed.
  Lemma tinv_run s : tinv (trun ts s).
  Proof.
    induction s as [|i s IH] using rev_ind; [|rewrite trun_snoc; by apply tinv_step].
    assert (Hpc : ∀ t p, (t, p) ∈ t_threads (tinit ts) → p = XStart) by (intros t p (? & [= _ ->] & _)%elem_of_list_fmap; done).
    constructor; cbn [trun foldl].
    - intros t p ->%Hpc. by destruct t.
    - intros Hx%Hpc. done.
    - intros t Hx%Hpc. done.
    - by intros n ?%elem_of_nil.
    - by intros ?%elem_of_nil.
  Qed.

  (** One step of one thread. *)
  Lemma tstep_cases c i : tstep c i = c ∨ ∃ t p, t_threads c !! i = Some (t, p) ∧
    tstep c i = TConf (tstep1 t p (t_state c)).1.2 (<[i := (t, (tstep1 t p (t_state c)).1.1)]> (t_threads c)) (t_log c ++ (tstep1 t p (t_state c)).2).
  Proof. unfold tstep. destruct (t_threads c !! i) as [[t p]|] eqn:Hi; [right|by left]. by exists t, p. Qed.
  Lemma hang_step t p s : VHang ∈ (tstep1 t p s).2 → p = XHang.
  Proof.
    unfold tstep1. destruct p; cbn [snd]; try done; try (by intros ?%elem_of_nil).
    - destruct t; cbn [snd]; by intros ?%elem_of_nil.
    - destruct t; try destruct (t_open s); try (by intros ?%elem_of_nil); by intros ?%elem_of_list_singleton.
    - destruct t; try (by intros ?%elem_of_nil); by intros ?%elem_of_list_singleton.
  Qed.
  Lemma to_hang t p s : (tstep1 t p s).1.1 = XHang → p = XReady.
  Proof.
    unfold tstep1. destruct p; cbn [fst]; try done; try (by destruct t); try (by case_decide); try (by destruct (t_ptr s), t).
    destruct t; cbn [fst]; try done; [by destruct (t_set s), (t_live s)|by destruct (t_open s)].
  Qed.
  Lemma to_ready t p s : (tstep1 t p s).1.1 = XReady → p = XLen ∧ t_nsps s = ∅.
  Proof.
    unfold tstep1. destruct p; cbn [fst]; try done; try (by destruct t); try (by destruct (t_open s)); try (by destruct (t_ptr s), t).
    - destruct t; cbn [fst]; try done; [by destruct (t_set s), (t_live s)|by destruct (t_open s)].
    - by case_decide.
  Qed.

  (** The hang up comes from a timer that found no namespace. *)
  Definition tried (sched : list nat) : Prop :=
    ∃ s1 i s2, sched = s1 ++ i :: s2 ∧ t_threads (trun ts s1) !! i = Some (TFire, XLen) ∧ t_nsps (t_state (trun ts s1)) = ∅.
  Lemma only_inv sched :
    (∀ t, (t, XReady) ∈ t_threads (trun ts sched) ∨ (t, XHang) ∈ t_threads (trun ts sched) → tried sched) ∧ (VHang ∈ t_log (trun ts sched) → tried sched).
  Proof.
    induction sched as [|i s [IH1 IH2]] using rev_ind.
    { split; [|by intros ?%elem_of_nil]. intros t [(? & [=] & _)%elem_of_list_fmap|(? & [=] & _)%elem_of_list_fmap]. }
    assert (Hmore : tried s → tried (s ++ [i])).
    { intros (s1 & k & s2 & -> & ?). exists s1, k, (s2 ++ [i]). by rewrite <- app_assoc. }
    rewrite trun_snoc. destruct (tstep_cases (trun ts s) i) as [->|(t & p & Hi & ->)]; [split; eauto|]. cbn [t_threads t_log].
    pose proof (elem_of_list_lookup_2 _ _ _ Hi) as Hin. pose proof (ti_valid _ (tinv_run s) _ _ Hin) as Hv. split.
    - intros t' [[[= -> Hp]|Hx]%(elem_ins _ _ _ _ _ Hi)|[[= -> Hp]|Hx]%(elem_ins _ _ _ _ _ Hi)]; [..|by eauto].
      + symmetry in Hp. apply to_ready in Hp as [-> Hn]. exists s, i, []. split_and!; [done| |done]. rewrite Hi. by destruct t.
      + by eauto.
      + symmetry in Hp. apply to_hang in Hp as ->. apply Hmore. apply (IH1 t). by left.
    - intros [?| ->%hang_step]%elem_of_app; [by auto|]. apply Hmore, (IH1 t). by right.
  Qed.
  Lemma only sched : VHang ∈ t_log (trun ts sched) → tried sched.
  Proof. apply only_inv. Qed.

  (** A namespace that is not left keeps the connection. *)
  Lemma stays s1 s2 n : n ∈ t_nsps (t_state (trun ts s1)) → TGo n ∉ ts → VHang ∉ t_log (trun ts s1) →
    (TFire, XReady) ∉ t_threads (trun ts s1) → (TFire, XHang) ∉ t_threads (trun ts s1) → VHang ∉ t_log (trun ts (s1 ++ s2)).
  Proof.
    intros Hn Hgo HL HR HH.
    enough (n ∈ t_nsps (t_state (trun ts (s1 ++ s2))) ∧ VHang ∉ t_log (trun ts (s1 ++ s2)) ∧ (TFire, XReady) ∉ t_threads (trun ts (s1 ++ s2)) ∧
      (TFire, XHang) ∉ t_threads (trun ts (s1 ++ s2))) by naive_solver.
    induction s2 as [|i s2 IH] using rev_ind; [by rewrite app_nil_r|]. destruct IH as (I1 & I2 & I3 & I4). rewrite app_assoc, trun_snoc.
    set (s := s1 ++ s2) in *.
    destruct (tstep_cases (trun ts s) i) as [->|(t & p & Hi & ->)]; [done|]. cbn [t_state t_threads t_log].
    pose proof (elem_of_list_lookup_2 _ _ _ Hi) as Hin. pose proof (ti_valid _ (tinv_run s) _ _ Hin) as Hv. pose proof (in_ts s _ _ Hin) as Ht. split_and!.
    - unfold tstep1. destruct p; cbn; try done; [|set_solver]. destruct t; cbn; try done. apply elem_of_difference. split; [done|]. intros ->%elem_of_singleton. done.
    - intros [?| ->%hang_step]%elem_of_app; [done|]. by destruct t.
    - intros [[= <- Hp]|Hx]%(elem_ins _ _ _ _ _ Hi); [|done]. symmetry in Hp. apply to_ready in Hp as [_ Hp]. set_solver.
    - intros [[= <- Hp]|Hx]%(elem_ins _ _ _ _ _ Hi); [|done]. symmetry in Hp. by apply to_hang in Hp as ->.
  Qed.

  (** An announced connection has stopped the timer. *)
  Lemma said_live s0 s : (TSetup, XEnd) ∈ t_threads (trun ts s0) → (∀ n p, (TAdmit n, p) ∈ t_threads (trun ts s0) → p = XStart) →
    (TSetup, XEnd) ∈ t_threads (trun ts (s0 ++ s)) ∧ (∀ n, (TAdmit n, XSay) ∈ t_threads (trun ts (s0 ++ s)) → t_live (t_state (trun ts (s0 ++ s))) = false) ∧
    (∀ n, VAnnounced n ∈ t_log (trun ts (s0 ++ s)) → t_live (t_state (trun ts (s0 ++ s))) = false).
  Proof.
    intros Hs Ha. induction s as [|i s (I1 & I2 & I3)] using rev_ind.
    { rewrite app_nil_r. split_and!; [done|by intros n ?%Ha|]. intros n Hx. by pose proof (Ha _ _ (ti_said _ (tinv_run s0) _ Hx)). }
    rewrite app_assoc, trun_snoc. set (w := s0 ++ s) in *.
    destruct (tstep_cases (trun ts w) i) as [->|(t & p & Hi & ->)]; [done|]. cbn [t_state t_threads t_log].
    pose proof (elem_of_list_lookup_2 _ _ _ Hi) as Hin. pose proof (ti_valid _ (tinv_run w) _ _ Hin) as Hv.
    assert (Hlive : t_live (t_state (trun ts w)) = false → t_live (tstep1 t p (t_state (trun ts w))).1.2 = false).
    { intros El. unfold tstep1. destruct p; cbn; try done; by destruct t. }
    split_and!.
    - destruct (elem_ins_other _ _ _ (t, (tstep1 t p (t_state (trun ts w))).1.1) _ Hi I1) as [[= <- <-]|?]; [|done]. cbn. by eapply elem_ins_self.
    - intros n [[= <- Hp]|Hx]%(elem_ins _ _ _ _ _ Hi); [|by eauto]. revert Hp Hlive. unfold tstep1. destruct p; cbn; try done.
      + by destruct (t_open _).
      + destruct (t_ptr _) eqn:Ep; [done|]. intros _ _. destruct (ti_stored _ (tinv_run w) I1) as [H'|H']; [congruence|done].
      + intros _ Hl. apply Hl. by apply (ti_nil _ (tinv_run w) _ Hin).
    - intros n [Hx|Hx]%elem_of_app; [by eauto|]. apply Hlive. revert Hx. unfold tstep1. destruct p; cbn [snd]; try (by intros ?%elem_of_nil).
      + destruct t; cbn [snd]; by intros ?%elem_of_nil.
      + by intros ?%elem_of_list_singleton.
      + destruct t; try destruct (t_open _); try (by intros ?%elem_of_nil); by intros ?%elem_of_list_singleton.
      + destruct t as [| |n'| |]; try (by intros ?%elem_of_nil). intros _. by eapply I2.
  Qed.
  Lemma stopped s1 s2 : t_live (t_state (trun ts s1)) = false → (∀ p, (TFire, p) ∈ t_threads (trun ts s1) → p = XStart) → VHang ∉ t_log (trun ts (s1 ++ s2)).
  Proof.
    intros Hl Hf.
    enough (t_live (t_state (trun ts (s1 ++ s2))) = false ∧ VHang ∉ t_log (trun ts (s1 ++ s2)) ∧ (∀ p, (TFire, p) ∈ t_threads (trun ts (s1 ++ s2)) → p = XStart ∨ p = XEnd)) by naive_solver.
    induction s2 as [|i s2 (I1 & I2 & I3)] using rev_ind.
    { rewrite app_nil_r. split_and!; [done| |by auto]. intros Hx. destruct (ti_hang _ (tinv_run s1) Hx) as (p & Hp & Hh). by rewrite (Hf p Hp) in Hh. }
    rewrite app_assoc, trun_snoc. set (w := s1 ++ s2) in *.
    destruct (tstep_cases (trun ts w) i) as [->|(t & p & Hi & ->)]; [done|]. cbn [t_state t_threads t_log].
    pose proof (elem_of_list_lookup_2 _ _ _ Hi) as Hin. pose proof (ti_valid _ (tinv_run w) _ _ Hin) as Hv. split_and!.
    - unfold tstep1. destruct p; cbn; try done; by destruct t.
    - intros [?| ->%hang_step]%elem_of_app; [done|]. destruct t; try done. by destruct (I3 _ Hin).
    - intros q [[= <- Hp]|Hx]%(elem_ins _ _ _ _ _ Hi); [|by auto]. subst q. destruct (I3 _ Hin) as [-> | ->]; cbn; [|by right].
      rewrite I1. destruct (t_set _); auto.
  Qed.
  Lemma announced s0 s s2 n : (TSetup, XEnd) ∈ t_threads (trun ts s0) → (∀ n p, (TAdmit n, p) ∈ t_threads (trun ts s0) → p = XStart) →
    VAnnounced n ∈ t_log (trun ts (s0 ++ s)) → (∀ p, (TFire, p) ∈ t_threads (trun ts (s0 ++ s)) → p = XStart) → VHang ∉ t_log (trun ts ((s0 ++ s) ++ s2)).
  Proof. intros Hs Ha Hn Hf. apply stopped; [|done]. destruct (said_live s0 s Hs Ha) as (_ & _ & H). by eapply H. Qed.

  (** Without a CONNECT the connection is hung up. *)
  Lemma alone s : (∀ n, TAdmit n ∉ ts) → TDown ∉ ts → TSetup ∈ ts → TFire ∈ ts → (∀ t p, (t, p) ∈ t_threads (trun ts s) → p = XEnd) →
    VHang ∈ t_log (trun ts s) ∧ t_open (t_state (trun ts s)) = false.
  Proof.
    intros Ha Hd Hs Hf He.
    assert (t_nsps (t_state (trun ts s)) = ∅ ∧ (VHang ∈ t_log (trun ts s) → t_open (t_state (trun ts s)) = false) ∧
      (VHang ∈ t_log (trun ts s) ∨ t_open (t_state (trun ts s)) = true ∧ t_live (t_state (trun ts s)) = true) ∧
      (∀ p, (TFire, p) ∈ t_threads (trun ts s) → hung p = true → VHang ∈ t_log (trun ts s))) as (_ & H2 & _ & H4).
    { clear He. induction s as [|i s (I1 & I2 & I3 & I4)] using rev_ind.
      { split_and!; [done|by intros ?%elem_of_nil|by right|]. intros p (? & [= _ ->] & _)%elem_of_list_fmap. done. }
      rewrite trun_snoc. destruct (tstep_cases (trun ts s) i) as [->|(t & p & Hi & ->)]; [done|]. cbn [t_state t_threads t_log].
      pose proof (elem_of_list_lookup_2 _ _ _ Hi) as Hin. pose proof (ti_valid _ (tinv_run s) _ _ Hin) as Hv. pose proof (in_ts s _ _ Hin) as Ht.
      split_and!.
      - unfold tstep1. destruct p; cbn; try done; [|destruct t; try done; by exfalso; eapply Ha]. destruct t; cbn; try done. rewrite I1. set_solver.
      - intros [Hx%I2| ->%hang_step]%elem_of_app; [|done]. unfold tstep1. destruct p; cbn; try done; by destruct t.
      - destruct I3 as [Hx|[Ho Hl]]; [left; apply elem_of_app; by left|]. unfold tstep1. destruct p; cbn; try (by right).
        + destruct t; cbn; try (by right); done.
        + left. set_solver.
        + left. apply elem_of_app. left. destruct t; try done; [|by exfalso; eapply Ha]. by eapply I4.
      - intros q [[= <- Hq]|Hx]%(elem_ins _ _ _ _ _ Hi) Hh; [|apply elem_of_app; left; by eauto]. subst q. revert Hh.
        destruct (decide (hung p = true)) as [Hp|Hp]; [intros _; apply elem_of_app; left; by eauto|].
        unfold tstep1. destruct p; cbn; try done; try (by destruct Hp).
        + destruct (t_set _); [|done]. destruct (t_live _) eqn:El; [done|]. intros _. apply elem_of_app. left. destruct I3 as [?|[_ ?]]; [done|congruence].
        + rewrite decide_True by done. done.
        + destruct (t_open _) eqn:Eo; [done|]. intros _. apply elem_of_app. left. destruct I3 as [?|[? _]]; [done|congruence].
        + intros _. set_solver. }
    assert (VHang ∈ t_log (trun ts s)); [|by auto]. rewrite <- (threads_run s) in Hf. apply elem_of_list_fmap in Hf as ([t p] & Ht & Hin). cbn in Ht. subst t.
    apply (H4 p Hin). by rewrite (He _ _ Hin).
  Qed.
End proofs.
