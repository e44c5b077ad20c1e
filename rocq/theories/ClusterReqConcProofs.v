(** Proofs about overlapping handlers of one request. *)
From Verif Require Import Base GoTypes ClusterReq ClusterReqConc.

Definition target (t : rthread) (u : string) : Prop := match t with TAnswer v _ | TLeave v => v = u | TTimeout => False end.
Definition is_timer (t : rthread) : bool := match t with TTimeout => true | _ => false end.
Definition valid (t : rthread) (p : rpc) : bool :=
  match t, p with
  | TAnswer _ _, RFired | TLeave _, RFired | TLeave _, RPush => false
  | TTimeout, (RPush | RDelete | RCheck | RClear) => false
  | _, _ => true
  end.
(** Past the removal from MissingUids, or finished. *)
Definition past_delete (p : rpc) : bool := match p with RCheck | RClear | RResolve | RUnstore | RDone => true | _ => false end.
Definition past_push (p : rpc) : bool := match p with RDelete | RCheck | RClear | RResolve | RUnstore => true | _ => false end.
Definition checking (p : rpc) : bool := match p with RCheck | RClear | RResolve => true | _ => false end.
Definition resolving (p : rpc) : bool := match p with RClear | RResolve => true | _ => false end.
Definition covered (ts : list rthread) (l : list value) (u : string) : Prop :=
  TLeave u ∈ ts ∨ ∃ k, TAnswer u k ∈ ts ∧ k ⊆ l.

Section proofs.
  Context (isf : bool) (N : gset string) (local : list value) (ts : list rthread).
  Record rinv (c : rconf) : Prop := {
    ri_threads : c.2.*1 = ts;
    ri_valid : ∀ t p, (t, p) ∈ c.2 → valid t p = true;
    ri_missing : ∀ u, u ∈ N → u ∈ rs_missing c.1 ∨ covered ts (rs_resp c.1) u;
    ri_push : ∀ u l p, (TAnswer u l, p) ∈ c.2 → past_push p = true → l ⊆ rs_resp c.1;
    ri_ok : ∀ l, CalledOk l ∈ rs_calls c.1 → ∀ u, u ∈ N → covered ts l u;
    ri_resolve : ∀ t p, (t, p) ∈ c.2 → is_timer t = false → resolving p = true → rs_missing c.1 = ∅;
    ri_empty : rs_missing c.1 = ∅ → rs_calls c.1 ≠ [] ∨ ∃ t p, (t, p) ∈ c.2 ∧ checking p = true ∧ is_timer t = false;
    ri_unstore : ∀ t, (t, RUnstore) ∈ c.2 → rs_calls c.1 ≠ [];
    ri_absent : rs_present c.1 = false → rs_calls c.1 ≠ [];
    ri_done : ∀ t p u, (t, p) ∈ c.2 → target t u → past_delete p = true → u ∉ rs_missing c.1 ∨ rs_calls c.1 ≠ [] }.

  Lemma covered_mono l l' u : l ⊆ l' → covered ts l u → covered ts l' u.
  Proof. intros Hl [?|(k & ? & ?)]; [by left|right]. exists k. split; [done|]. by etrans. Qed.
  Lemma elem_insert {A} (l : list A) i x y z : l !! i = Some x → z ∈ <[i := y]> l → z = y ∨ z ∈ l.
  Proof.
    intros Hi [j Hj]%elem_of_list_lookup. destruct (decide (j = i)) as [->|].
    - rewrite list_lookup_insert in Hj by (by eapply lookup_lt_Some). injection Hj as <-. by left.
    - rewrite list_lookup_insert_ne in Hj by done. right. by eapply elem_of_list_lookup_2.
  Qed.
  Lemma elem_insert_other {A} (l : list A) i x y z : l !! i = Some x → z ∈ l → z = x ∨ z ∈ <[i := y]> l.
  Proof.
    intros Hi [j Hj]%elem_of_list_lookup. destruct (decide (j = i)) as [->|].
    - left. congruence.
    - right. apply elem_of_list_lookup. exists j. by rewrite list_lookup_insert_ne.
  Qed.
  Lemma elem_insert_self {A} (l : list A) i x y : l !! i = Some x → y ∈ <[i := y]> l.
  Proof. intros Hi. apply elem_of_list_lookup. exists i. apply list_lookup_insert. by eapply lookup_lt_Some. Qed.

  Lemma rstep_inv c i : rinv c → rinv (rstep isf c i).
  Proof.
    intros [I1 Iv I2 I3 I5 I6 I7 I8 I9 I10]. unfold rstep. destruct (c.2 !! i) as [[t p]|] eqn:Hi; [|by constructor].
    pose proof (elem_of_list_lookup_2 _ _ _ Hi) as Hin. destruct c as [s tps]. cbn [fst snd] in *.
    pose proof (Iv t p Hin) as Hval.
    assert (Hts : t ∈ ts) by (rewrite <-I1; by apply (elem_of_list_fmap_1 fst _ (t, p))).
    assert (Hthreads : ∀ p', (<[i := (t, p')]> tps).*1 = ts).
    { intros p'. rewrite list_fmap_insert. cbn. rewrite <-I1. apply list_insert_id. by rewrite list_lookup_fmap, Hi. }
    assert (Hcov : ∀ u, target t u → past_push p = true → covered ts (rs_resp s) u).
    { intros u Hu Hp. destruct t as [v l|v|]; cbn in Hu; [subst v|subst v|done]; [right; exists l; split; [done|by eapply I3]|by left]. }
    assert (Hold : ∀ x p', x ∈ <[i := (t, p')]> tps → x = (t, p') ∨ x ∈ tps) by (intros; by eapply elem_insert).
    assert (Hnew : ∀ x p', x ∈ tps → x = (t, p) ∨ x ∈ <[i := (t, p')]> tps) by (intros; by eapply elem_insert_other).
    assert (Hself : ∀ p', (t, p') ∈ <[i := (t, p')]> tps) by (intros; by eapply elem_insert_self).
    (* The goroutine moves and the shared state becomes [s']. *)
    assert (Hmove : ∀ p' s', valid t p' = true → (∀ x, x ∈ rs_missing s' → x ∈ rs_missing s) → rs_resp s ⊆ rs_resp s' →
      (rs_calls s ≠ [] → rs_calls s' ≠ []) →
      (∀ u, u ∈ N → u ∈ rs_missing s → u ∉ rs_missing s' → covered ts (rs_resp s') u) →
      (∀ u l, t = TAnswer u l → past_push p' = true → past_push p = true ∨ l ⊆ rs_resp s') →
      (∀ l, CalledOk l ∈ rs_calls s' → CalledOk l ∈ rs_calls s ∨ ∀ u, u ∈ N → covered ts l u) →
      (is_timer t = false → resolving p' = true → rs_missing s' = ∅) →
      (rs_missing s' = ∅ → rs_missing s = ∅ ∧ checking p && negb (is_timer t) = false ∨ rs_calls s' ≠ [] ∨ checking p' && negb (is_timer t) = true) →
      (p' = RUnstore → rs_calls s' ≠ []) → (rs_present s' = false → rs_calls s' ≠ []) →
      (∀ u, target t u → past_delete p' = true → u ∉ rs_missing s' ∨ rs_calls s' ≠ []) → rinv (s', <[i := (t, p')]> tps)).
    { intros p' s' M0 M1 M2 M3 M4 M5 M6 M7 M8 M9 M10 M11. constructor; cbn [fst snd]; try done.
      - intros t' q [[= -> ->]|?]%Hold; [done|by apply Iv].
      - intros u Hu. destruct (decide (u ∈ rs_missing s')); [by left|]. right.
        destruct (I2 u Hu) as [Hm|Hm]; [by apply M4|by eapply covered_mono].
      - intros u l q [[= <- <-]|?]%Hold Hq; [|etrans; [by eapply I3|done]].
        destruct (M5 u l eq_refl Hq) as [Hp|]; [|done]. etrans; [by eapply (I3 u l p)|done].
      - intros l [?|?]%M6; [by apply I5|done].
      - intros t' q [[= -> ->]|?]%Hold; [done|]. intros Ht Hq. specialize (I6 _ _ H Ht Hq).
        apply set_eq. intros x. split; [intros ?%M1; by rewrite I6 in *|set_solver].
      - intros Hz. destruct (M8 Hz) as [[Hz' Hc]|[Hc|Hc]]; [|by left|].
        + destruct (I7 Hz') as [|(t' & q & Hx & Hq & Ht')]; [left; auto|].
          destruct (Hnew _ p' Hx) as [[= -> ->]|?]; [by rewrite Hq, Ht' in Hc|right; by exists t', q].
        + right. exists t, p'. apply andb_true_iff in Hc as [? ?%negb_true_iff]. done.
      - intros t' [[= -> Hp']|?]%Hold; [by apply M9|]. apply M3. by eapply I8.
      - intros t' q u [[= -> ->]|?]%Hold; [by apply M11|]. intros Hu Hq.
        destruct (I10 t' q u) as [Hm|]; [done..| |right; auto]. left. intros ?. by apply Hm, M1. }
    unfold rstep1. destruct p; cbn [fst snd].
    - (* load *)
      destruct t as [u l|u|]; [destruct (rs_present s) eqn:Hp|destruct (rs_present s) eqn:Hp|destruct (rs_cleared s)]; cbn [fst snd];
        apply Hmove; cbn; try done; auto; first [by rewrite Hp|intros; right; by apply I9].
    - destruct t; [done..|]. destruct (rs_present s) eqn:Hp; cbn [fst snd]; apply Hmove; cbn; try done; auto.
      by rewrite Hp.
    - (* push *)
      destruct t as [u l|u|]; [|done..]. apply Hmove; cbn; try done; auto.
      + intros x Hx. apply elem_of_app. by left.
      + intros ? ? [= <- <-] _. right. intros x Hx. apply elem_of_app. by right.
    - (* delete *)
      assert (Ht : is_timer t = false) by (by destruct t).
      apply Hmove; cbn; try done; auto.
      + intros x. destruct t; clear; set_solver.
      + intros u Hu Hm Hn. apply Hcov; [|done]. destruct t as [v l|v|]; cbn; [..|done];
          (destruct (decide (v = u)); [done|]); destruct Hn; apply elem_of_difference; (split; [done|]); by intros ->%elem_of_singleton.
      + intros _. right. right. by rewrite Ht.
      + intros u Hu _. left. destruct t as [v l|v|]; cbn in Hu; [subst v|subst v|done]; clear; set_solver.
    - (* check *)
      assert (Ht : is_timer t = false) by (by destruct t).
      destruct (decide (rs_missing s = ∅)) as [Hz|Hz]; cbn [fst snd]; apply Hmove; cbn; try done; auto; try (by destruct t).
      + intros _. right. right. by rewrite Ht.
      + intros u Hu _. by eapply (I10 t RCheck).
      + intros u Hu _. by eapply (I10 t RCheck).
    - (* clear the timer *)
      assert (Ht : is_timer t = false) by (by destruct t).
      pose proof (I6 t RClear Hin Ht eq_refl) as Hz. apply Hmove; cbn; try done; auto; try (by destruct t).
      + intros _. right. right. by rewrite Ht.
      + intros u Hu _. left. rewrite Hz. clear; set_solver.
    - (* resolve *)
      assert (Hne : ∀ c, rs_calls s ++ [c] ≠ []) by (intros ? ?; by destruct (rs_calls s)).
      apply Hmove; cbn; try done; auto; try (by destruct t).
      intros l [?|El%elem_of_list_singleton]%elem_of_app; [by left|]. right. intros u Hu.
      destruct (is_timer t) eqn:Ht; [by destruct t|].
      assert (l = rs_resp s) as -> by (destruct t; congruence).
      destruct (I2 u Hu) as [Hm|]; [|done]. rewrite (I6 t RResolve Hin Ht eq_refl) in Hm. by apply not_elem_of_empty in Hm.
    - (* unstore *)
      pose proof (I8 t Hin) as Hc. apply Hmove; cbn; try done; auto; try (by destruct t).
    - (* done *)
      apply Hmove; cbn; try done; auto.
      intros u Hu _. by eapply (I10 t RDone).
  Qed.

  Lemma rrun_inv sched : N ≠ ∅ → rinv (rrun isf N local ts sched).
  Proof.
    intros HN. induction sched as [|i sched IH] using rev_ind.
    - assert (Hpc : ∀ t p, (t, p) ∈ (rinit N local ts).2 → p = RLoad) by (intros t p (? & [= _ ->] & _)%elem_of_list_fmap; done).
      constructor; cbn [rrun foldl fst snd rs_calls rs_missing rs_present rs_resp].
      + cbn. rewrite <-list_fmap_compose. by rewrite list_fmap_id.
      + intros t p ->%Hpc. by destruct t.
      + intros u Hu. by left.
      + intros u l p ->%Hpc; done.
      + by intros l ?%elem_of_nil.
      + intros t p ->%Hpc; done.
      + done.
      + intros t Hx%Hpc; done.
      + done.
      + intros t p u ->%Hpc; done.
    - unfold rrun. rewrite foldl_app. apply rstep_inv, IH.
  Qed.

  (** A result is reported only when each server asked has answered, its answer being included, or has left. *)
  Lemma ok_covered sched l : N ≠ ∅ → CalledOk l ∈ rs_calls (rrun isf N local ts sched).1 → ∀ u, u ∈ N → covered ts l u.
  Proof. intros HN. apply (ri_ok _ (rrun_inv sched HN)). Qed.
  (** When each server answers or leaves, the callback is called. *)
  Lemma called_at_least_once sched : N ≠ ∅ → (∀ u, u ∈ N → ∃ t, t ∈ ts ∧ target t u) →
    (∀ t p, (t, p) ∈ (rrun isf N local ts sched).2 → p = RDone) → rs_calls (rrun isf N local ts sched).1 ≠ [].
  Proof.
    intros HN Hall Hdone. pose proof (rrun_inv sched HN) as I. set (c := rrun isf N local ts sched) in *.
    destruct (rs_calls c.1) as [|x k] eqn:E; [|done]. exfalso.
    assert (Hsub : rs_missing c.1 ∩ N = ∅).
    { apply set_eq. intros u. split; [|set_solver]. intros [Hm Hu]%elem_of_intersection.
      destruct (Hall u Hu) as (t & Ht & Htu). rewrite <-(ri_threads _ I) in Ht. apply elem_of_list_fmap in Ht as ([t' p] & -> & Hx).
      rewrite (Hdone _ _ Hx) in Hx. destruct (ri_done _ I t' RDone u Hx Htu eq_refl) as [|Hc]; [done|]. by rewrite E in Hc. }
    assert (Hsub' : rs_missing c.1 ⊆ N).
    { subst c. clear -HN. induction sched as [|i sched IH] using rev_ind; [done|]. unfold rrun. rewrite foldl_app. cbn [foldl].
      change (foldl _ _ sched) with (rrun isf N local ts sched). set (c := rrun isf N local ts sched) in *.
      unfold rstep. destruct (c.2 !! i) as [[t p]|]; [|done]. destruct p; cbn; try done; [by destruct t|]. etrans; [|exact IH]. intros x [? _]%elem_of_difference. done. }
    destruct (ri_empty _ I) as [Hc|(t & p & Hx & Hc & _)]; [set_solver|by rewrite E in Hc|].
    by rewrite (Hdone _ _ Hx) in Hc.
  Qed.

  (** ** What is reported *)
  Definition nothing_else (l : list value) : Prop := local `prefix_of` l ∧ ∀ v, v ∈ l → v ∈ local ∨ ∃ u k, TAnswer u k ∈ ts ∧ v ∈ k.
  Definition told (c : ccall) : Prop :=
    match c with CalledOk l => nothing_else l | CalledErr l => TTimeout ∈ ts ∧ if isf then l = [] else nothing_else l | _ => False end.
  Lemma step_threads c i : (rstep isf c i).2.*1 = c.2.*1.
  Proof.
    unfold rstep. destruct (c.2 !! i) as [[t p]|] eqn:Hi; [|done]. cbn. rewrite list_fmap_insert. cbn. apply list_insert_id. by rewrite list_lookup_fmap, Hi.
  Qed.
  Lemma step_told c i : c.2.*1 = ts → nothing_else (rs_resp c.1) → Forall told (rs_calls c.1) →
    nothing_else (rs_resp (rstep isf c i).1) ∧ Forall told (rs_calls (rstep isf c i).1).
  Proof.
    intros Hts Hn Hc. unfold rstep. destruct (c.2 !! i) as [[t p]|] eqn:Hi; [|done].
    assert (t ∈ ts) as Ht by (rewrite <- Hts; apply elem_of_list_fmap; exists (t, p); split; [done|by eapply elem_of_list_lookup_2]).
    destruct p; cbn; try done; [by destruct t| |].
    - split; [|done]. destruct t as [u k|u|]; cbn; [|by rewrite app_nil_r..]. destruct Hn as [Hp Hv]. split; [by apply prefix_app_r|].
      intros v [?|?]%elem_of_app; [by apply Hv|eauto].
    - split; [done|]. apply Forall_app. split; [done|]. apply Forall_singleton. destruct t; cbn; try done. split; [done|]. by destruct isf.
  Qed.
  Lemma told_run sched : Forall told (rs_calls (rrun isf N local ts sched).1).
  Proof.
    assert ((rrun isf N local ts sched).2.*1 = ts ∧ nothing_else (rs_resp (rrun isf N local ts sched).1) ∧ Forall told (rs_calls (rrun isf N local ts sched).1)) as (_ & _ & ?); [|done].
    induction sched as [|i sched (I1 & I2 & I3)] using rev_ind.
    - cbn. split; [rewrite <-list_fmap_compose; by rewrite list_fmap_id|]. split; [|constructor]. split; [done|by left].
    - unfold rrun. rewrite foldl_app. cbn [foldl]. fold (rrun isf N local ts sched). rewrite step_threads. split; [done|]. by apply step_told.
  Qed.
  (** ** The timer is stopped *)
  Record stop_inv (c : rconf) : Prop := {
    si_valid : ∀ t p, (t, p) ∈ c.2 → valid t p = true;
    si_done : ∀ t p, (t, p) ∈ c.2 → is_timer t = false → p = RResolve ∨ p = RUnstore → rs_cleared c.1 = true;
    si_ok : ∀ l, CalledOk l ∈ rs_calls c.1 → rs_cleared c.1 = true;
    si_err : ∀ l, CalledErr l ∈ rs_calls c.1 → (TTimeout, RUnstore) ∈ c.2 ∨ (TTimeout, RDone) ∈ c.2 }.
  Lemma stop_step c i : stop_inv c → stop_inv (rstep isf c i).
  Proof.
    intros [V D O E]. unfold rstep. destruct (c.2 !! i) as [[t p]|] eqn:Hi; [|by constructor].
    pose proof (elem_of_list_lookup_2 _ _ _ Hi) as Hin. destruct c as [s tps]. cbn [fst snd] in *. pose proof (V t p Hin) as Hv.
    assert (∀ p' s', valid t p' = true → (rs_cleared s = true → rs_cleared s' = true) → (is_timer t = false → p' = RResolve ∨ p' = RUnstore → rs_cleared s' = true) →
      (∀ l, CalledOk l ∈ rs_calls s' → rs_cleared s' = true) →
      (∀ l, CalledErr l ∈ rs_calls s' → CalledErr l ∈ rs_calls s ∨ t = TTimeout ∧ p' = RUnstore) → (is_timer t = true → p = RUnstore ∨ p = RDone → p' = RUnstore ∨ p' = RDone) →
      stop_inv (s', <[i := (t, p')]> tps)) as H.
    { intros p' s' M0 M1 M2 M3 M4 M5. constructor; cbn [fst snd].
      - intros t' q [[= -> ->]|?]%(elem_insert _ _ _ _ _ Hi); [done|by apply V].
      - intros t' q [[= -> ->]|Hx]%(elem_insert _ _ _ _ _ Hi); [done|]. intros. apply M1. by eapply D.
      - done.
      - intros l [H|[-> ->]]%M4; [|left; by eapply elem_insert_self].
        destruct (E l H) as [Hx|Hx]; (destruct (elem_insert_other _ _ _ (t, p') _ Hi Hx) as [[= <- <-]|?]; [|by auto]); (destruct M5 as [-> | ->]; [done|by auto|left|right]; by eapply elem_insert_self). }
    unfold rstep1. destruct p; cbn [fst snd].
    - destruct t as [u l|u|]; [destruct (rs_present s)|destruct (rs_present s)|destruct (rs_cleared s) eqn:Ec]; cbn [fst snd]; apply H; cbn; try done; auto; try (by intros ? [?|?]); try (intros ? ?; by destruct (O _ ltac:(done))); intros _ [?|?]; done.
    - destruct t; [done..|]. destruct (rs_present s); cbn [fst snd]; apply H; cbn; try done; auto; intros _ [?|?]; done.
    - destruct t; [|done..]. apply H; cbn; try done; auto. intros _ [?|?]; done.
    - apply H; cbn; try done; auto; try (by destruct t). intros _ [?|?]; done.
    - destruct (decide _); cbn [fst snd]; apply H; cbn; try done; auto; try (by destruct t); intros _ [?|?]; done.
    - apply H; cbn; try done; auto; by destruct t.
    - apply H; cbn; try done; auto; try (by destruct t).
      + intros Ht _. by eapply D; [exact Hin| |left].
      + intros l [?|Hl%elem_of_list_singleton]%elem_of_app; [by eapply O|]. eapply D; [exact Hin| |by left]. by destruct t.
      + intros l [?|Hl%elem_of_list_singleton]%elem_of_app; [by left|]. right. by destruct t.
    - apply H; cbn; try done; auto; try (by destruct t). intros _ [?|?]; done.
    - apply H; cbn; try done; auto. intros _ [?|?]; done.
  Qed.
  Lemma stop_run sched : stop_inv (rrun isf N local ts sched).
  Proof.
    induction sched as [|i sched IH] using rev_ind; [|unfold rrun; rewrite foldl_app; by apply stop_step].
    assert (Hpc : ∀ t p, (t, p) ∈ (rinit N local ts).2 → p = RLoad) by (intros t p (? & [= _ ->] & _)%elem_of_list_fmap; done).
    constructor; cbn [rrun foldl].
    - intros t p ->%Hpc. by destruct t.
    - intros t p ->%Hpc. intros _ [?|?]; done.
    - by intros l ?%elem_of_nil.
    - by intros l ?%elem_of_nil.
  Qed.
  Lemma stopped_keeps (s2 : list nat) (c : rconf) : rs_cleared c.1 = true → (∀ p, (TTimeout, p) ∈ c.2 → p = RLoad ∨ p = RDone) → (∀ e, CalledErr e ∉ rs_calls c.1) →
    ∀ e, CalledErr e ∉ rs_calls (foldl (rstep isf) c s2).1.
  Proof.
    revert c. induction s2 as [|i s2 IH]; intros c Hc Ht He; [done|]. cbn [foldl]. apply IH; clear IH.
    - unfold rstep. destruct (c.2 !! i) as [[t p]|]; [|done]. destruct p; cbn; try done. by destruct t.
    - unfold rstep. destruct (c.2 !! i) as [[t p]|] eqn:Hi; [|done]. cbn. intros q [[= <- ->]|?]%(elem_insert _ _ _ _ _ Hi); [|by apply Ht].
      destruct (Ht p (elem_of_list_lookup_2 _ _ _ Hi)) as [-> | ->]; cbn; [rewrite Hc; auto|auto].
    - unfold rstep. destruct (c.2 !! i) as [[t p]|] eqn:Hi; [|done]. destruct p; cbn; try done; [by destruct t|].
      intros e [?|Hx%elem_of_list_singleton]%elem_of_app; [by eapply He|]. destruct t; try done.
      destruct (Ht _ (elem_of_list_lookup_2 _ _ _ Hi)); done.
  Qed.
  Lemma stopped s1 s2 l : CalledOk l ∈ rs_calls (rrun isf N local ts s1).1 → (∀ p, (TTimeout, p) ∈ (rrun isf N local ts s1).2 → p = RLoad) →
    ∀ e, CalledErr e ∉ rs_calls (rrun isf N local ts (s1 ++ s2)).1.
  Proof.
    intros Hl Ht. destruct (stop_run s1) as [_ _ O E]. unfold rrun at 1. rewrite foldl_app. fold (rrun isf N local ts s1). apply stopped_keeps; [by eapply O|by left; apply Ht|].
    intros e He. destruct (E e He) as [?%Ht|?%Ht]; done.
  Qed.

  (** ** The request is over *)
  Lemma over_run sched : rs_calls (rrun isf N local ts sched).1 ≠ [] →
    rs_present (rrun isf N local ts sched).1 = false ∨ ∃ t, (t, RUnstore) ∈ (rrun isf N local ts sched).2.
  Proof.
    induction sched as [|i sched IH] using rev_ind; [done|]. unfold rrun. rewrite foldl_app. cbn [foldl]. fold (rrun isf N local ts sched). set (c := rrun isf N local ts sched) in *. clearbody c.
    unfold rstep. destruct (c.2 !! i) as [[t p]|] eqn:Hi; [|done]. destruct c as [s tps]. cbn [fst snd] in *.
    assert (∀ p', p ≠ RUnstore → rs_calls s ≠ [] → rs_present s = false ∨ ∃ t', (t', RUnstore) ∈ <[i := (t, p')]> tps) as Hk.
    { intros p' Hp [?|(t' & Hx)]%IH; [by left|right; exists t']. destruct (elem_insert_other _ _ _ (t, p') _ Hi Hx) as [[= _ ?]|?]; [by subst|done]. }
    destruct p; cbn; try (by apply Hk); try (destruct t; cbn; by apply Hk); [|by left]. intros _. right. exists t. by eapply elem_insert_self.
  Qed.
  Lemma over_keeps (s2 : list nat) (c : rconf) : rs_present c.1 = false → (∀ t p, (t, p) ∈ c.2 → p = RLoad ∨ p = RDone ∨ p = RFired) →
    rs_calls (foldl (rstep isf) c s2).1 = rs_calls c.1.
  Proof.
    revert c. induction s2 as [|i s2 IH]; intros c Hc Ht; [done|]. cbn [foldl].
    assert (rs_present (rstep isf c i).1 = false ∧ rs_calls (rstep isf c i).1 = rs_calls c.1 ∧ ∀ t p, (t, p) ∈ (rstep isf c i).2 → p = RLoad ∨ p = RDone ∨ p = RFired) as (H1 & H2 & H3); [|by rewrite IH].
    unfold rstep. destruct (c.2 !! i) as [[t p]|] eqn:Hi; [|done].
    pose proof (Ht t p (elem_of_list_lookup_2 _ _ _ Hi)) as Hp. cbn.
    assert (∃ q, rstep1 isf t p c.1 = (q, c.1) ∧ (q = RLoad ∨ q = RDone ∨ q = RFired)) as (q & -> & Hq).
    { destruct Hp as [-> |[-> | ->]]; cbn; rewrite ?Hc; [destruct t; [eauto..|]; destruct (rs_cleared c.1); eauto 10|eauto..]. }
    split; [done|]. split; [done|]. cbn. intros t' p' [[= -> ->]|?]%(elem_insert _ _ _ _ _ Hi); [done|by eapply Ht].
  Qed.
  Lemma over s1 s2 : rs_calls (rrun isf N local ts s1).1 ≠ [] → (∀ t p, (t, p) ∈ (rrun isf N local ts s1).2 → p = RLoad ∨ p = RDone) →
    rs_calls (rrun isf N local ts (s1 ++ s2)).1 = rs_calls (rrun isf N local ts s1).1.
  Proof.
    intros Hc Ht. unfold rrun at 1. rewrite foldl_app. fold (rrun isf N local ts s1). apply over_keeps.
    - destruct (over_run s1 Hc) as [?|(t & Hx)]; [done|]. destruct (Ht _ _ Hx); done.
    - intros t p [?|?]%Ht; auto.
  Qed.
End proofs.
