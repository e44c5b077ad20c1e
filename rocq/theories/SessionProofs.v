(** Proofs about [Session.v]. *)
From Verif Require Import Base GoTypes Session SessionSpec.

Lemma storable_recoverable b : storable b = true ↔ recoverable b.
Proof.
  unfold storable, recoverable. rewrite !andb_true_iff, bool_decide_eq_true, negb_true_iff.
  destruct (bc_opts b) as [o|]; [destruct (bo_flags o) as [f|] eqn:Ef|]; rewrite ?negb_true_iff; split.
  all: try (intros [[H1 H2] H3]; split; [done|]; split; [done|]; intros o' f' Ho' Hf'; simplify_eq; congruence).
  all: try (intros (H1&H2&H3); split; [done|]; try done; by eapply H3).
Qed.

(** ** The targeting rule of the replay *)
Lemma include_loop_spec rs ex keys : ∀ (inc ne : bool), ∃ b : bool, include_loop rs (Some ex) keys inc ne = Some b ∧
  (b = true ↔ (inc = true ∨ ∃ r, r ∈ keys ∧ r ∈ rs) ∧ ne = true ∧ ¬ ∃ r, r ∈ keys ∧ r ∈ ex).
Proof.
  induction keys as [|r keys IH]; intros inc ne; simpl.
  - eexists. split; [done|]. rewrite andb_true_iff. split.
    + intros [-> ->]. split; [by left|]. split; [done|]. intros (r&Hr&_). by apply elem_of_nil in Hr.
    + intros ([->|(r&Hr&_)]&->&_); [done|]. by apply elem_of_nil in Hr.
  - destruct (inc && negb ne) eqn:E.
    + apply andb_true_iff in E as [-> E]. apply negb_true_iff in E as ->. exists false. split; [done|]. naive_solver.
    + destruct ne.
      * destruct (IH (if negb inc && bool_decide (r ∈ rs) then true else inc) (if bool_decide (r ∈ ex) then false else true)) as (b&Hb1&Hb2).
        exists b. split; [done|]. rewrite Hb2. clear -E. setoid_rewrite elem_of_cons.
        destruct (bool_decide (r ∈ rs)) eqn:E1; destruct (bool_decide (r ∈ ex)) eqn:E2;
          try apply bool_decide_eq_true in E1; try apply bool_decide_eq_false in E1;
          try apply bool_decide_eq_true in E2; try apply bool_decide_eq_false in E2; destruct inc; simpl; clear E; naive_solver.
      * destruct (IH (if negb inc && bool_decide (r ∈ rs) then true else inc) false) as (b&Hb1&Hb2). exists b. split; [done|]. rewrite Hb2. clear. naive_solver.
Qed.
Lemma should_include_spec o rooms b : order_ok o → proper b → should_include (o rooms) (bc_opts b) = Some (bool_decide (concerns rooms b)).
Proof.
  intros Ho (rs&ex&f&E). unfold should_include. rewrite E. cbn [bo_rooms bo_except].
  destruct (include_loop_spec rs ex (o rooms) (bool_decide (size rs = 0)) true) as (c&->&Hc). f_equal.
  assert (c = true ↔ concerns rooms b) as Hcc.
  { rewrite Hc. unfold concerns. rewrite E. setoid_rewrite (order_elem _ _ _ Ho). rewrite bool_decide_eq_true, size_empty_iff, leibniz_equiv_iff. clear. naive_solver. }
  destruct c; symmetry; [apply bool_decide_eq_true_2|apply bool_decide_eq_false_2]; naive_solver.
Qed.

(** ** Packets *)
Definition mk (x : string * Z * bcast) : spacket := SPacket x.1.1 x.1.2 (wire_data x) (bc_opts x.2).
Lemma broadcasts_app h1 h2 : broadcasts (h1 ++ h2) = broadcasts h1 ++ broadcasts h2.
Proof. apply omap_app. Qed.
Lemma broadcasts_elem h x : x ∈ broadcasts h ↔ (x.1.2, SBcast x.1.1 x.2) ∈ h ∧ recoverable x.2.
Proof.
  unfold broadcasts. rewrite elem_of_list_omap. split.
  - intros ([t op]&He&Hx). simpl in Hx. destruct op as [|id b| |]; try done. destruct (decide (recoverable b)); [|done]. by injection Hx as <-.
  - intros [He Hr]. eexists. split; [exact He|]. simpl. rewrite decide_True by done. by destruct x as [[??]?].
Qed.
Lemma timed_snoc h e now : timed (h ++ [e]) now → timed h e.1 ∧ (e.1 ≤ now)%Z.
Proof.
  intros H. split.
  - intros h1 t op h2 ->. split.
    + destruct (H h1 t op (h2 ++ [e])) as [_ H2]; [by rewrite <- app_assoc|]. apply H2, elem_of_app. right. by left.
    + destruct (H h1 t op (h2 ++ [e])) as [_ H2]; [by rewrite <- app_assoc|]. intros e' He'. apply H2, elem_of_app. by left.
  - destruct e as [t op]. by destruct (H h t op []).
Qed.
Lemma timed_le h now e : timed h now → e ∈ h → (e.1 ≤ now)%Z.
Proof. intros H (h1&h2&->)%elem_of_list_split. destruct e as [t op]. by destruct (H h1 t op h2). Qed.

Fixpoint ordered (ps : list spacket) : Prop :=
  match ps with [] => True | p :: ps => (∀ q, q ∈ ps → (sp_at p ≤ sp_at q)%Z) ∧ ordered ps end.
Lemma ordered_snoc ps p : ordered (ps ++ [p]) ↔ ordered ps ∧ ∀ q, q ∈ ps → (sp_at q ≤ sp_at p)%Z.
Proof.
  induction ps as [|q ps IH]; simpl.
  - setoid_rewrite elem_of_nil. naive_solver.
  - rewrite IH. setoid_rewrite elem_of_app. setoid_rewrite elem_of_cons. split.
    + intros (H1&H2&H3). split; [split; [|done]; intros; apply H1; by left|]. intros x [->|Hx]; [apply H1; right; by left|auto].
    + intros ((H1&H2)&H3). split; [|split; [done|auto]]. intros x [Hx|[->|Hx]]; [auto|apply H3; by left|by apply elem_of_nil in Hx].
Qed.
Lemma ordered_drop k ps : ordered ps → ordered (drop k ps).
Proof. revert k. induction ps as [|p ps IH]; intros [|k]; simpl; try done. intros [_ H]. by apply IH. Qed.
Lemma timed_ordered h now : timed h now → ordered (mk <$> broadcasts h).
Proof.
  revert now. induction h as [|e h IH] using rev_ind; intros now Ht; [done|]. apply timed_snoc in Ht as [Ht _].
  rewrite broadcasts_app, fmap_app. destruct e as [t op]. destruct op as [|id b| |]; simpl; rewrite ?app_nil_r; try by eapply IH.
  destruct (decide (recoverable b)); simpl; rewrite ?app_nil_r; [|by eapply IH].
  apply ordered_snoc. split; [by eapply IH|]. intros q (x&->&Hx)%elem_of_list_fmap. simpl. apply broadcasts_elem in Hx as [Hx _].
  by apply (timed_le _ _ _ Ht) in Hx.
Qed.

Lemma splice_drop th ps : ∃ k, splice_expired th ps = drop k ps.
Proof.
  induction ps as [|p ps [k IH]]; [by exists 0|]. simpl. destruct (existsb _ ps); [by exists (S k)|].
  destruct (sp_at p <? th)%Z; [by exists 1|by exists 0].
Qed.
Lemma splice_filter th ps : ordered ps → splice_expired th ps = filter (λ p, ¬ (sp_at p < th)%Z) ps.
Proof.
  induction ps as [|p ps IH]; [done|]. intros [H1 H2]. simpl. rewrite filter_cons. destruct (existsb (λ q, (sp_at q <? th)%Z) ps) eqn:E.
  - rewrite IH by done. apply existsb_exists in E as (q&Hq&Hlt). apply elem_of_list_In in Hq. apply Z.ltb_lt in Hlt. specialize (H1 q Hq).
    rewrite decide_False; [done|]. lia.
  - assert (∀ q, q ∈ ps → ¬ (sp_at q < th)%Z) as Hall.
    { intros q Hq Hlt. assert (existsb (λ q, (sp_at q <? th)%Z) ps = true); [|congruence]. apply existsb_exists. exists q.
      split; [by apply elem_of_list_In|by apply Z.ltb_lt]. }
    assert (filter (λ p, ¬ (sp_at p < th)%Z) ps = ps) as Hf.
    { clear -Hall. induction ps as [|q ps IH]; [done|]. rewrite filter_cons, decide_True by (apply Hall; by left). f_equal. apply IH. intros. apply Hall. by right. }
    rewrite Hf. destruct (Z.ltb_spec (sp_at p) th); [rewrite decide_False by lia|rewrite decide_True by lia]; done.
Qed.

(** ** The store after a history *)
Lemma srun_snoc max h e : srun max (h ++ [e]) = sstep e (srun max h).
Proof. unfold srun. by rewrite foldl_app. Qed.
Lemma srun_max max h : st_max (srun max h) = max.
Proof.
  induction h as [|[t op] h IH] using rev_ind; [done|]. rewrite srun_snoc. unfold sstep. simpl. destruct op as [x|id b| |o pid off]; simpl.
  - done. - unfold sbroadcast. by destruct (storable b). - done.
  - unfold restore. destruct (st_sessions _ !! pid) as [[x t']|]; [|done]. destruct (_ <? _)%Z; [done|].
    destruct (after_offset _ _); [|done]. by destruct (missed_loop _ _).
Qed.
Lemma restore_store o now pid off s : (restore o now pid off s).1 = s ∨
  ∃ x t, st_sessions s !! pid = Some (x, t) ∧ (t + st_max s < now)%Z ∧ (restore o now pid off s).1 = Store (st_max s) (delete pid (st_sessions s)) (st_packets s).
Proof.
  unfold restore. destruct (st_sessions s !! pid) as [[x t']|]; [|by left]. destruct (Z.ltb_spec (t' + st_max s) now); [right; eauto|].
  left. destruct (after_offset _ _); [|done]. by destruct (missed_loop _ _).
Qed.
Lemma sstep_packets max h e : st_packets (sstep e (srun max h)) =
  match e.2 with
  | SBcast id b => st_packets (srun max h) ++ (mk <$> broadcasts [e])
  | SCleanup => splice_expired (e.1 - max) (st_packets (srun max h))
  | _ => st_packets (srun max h)
  end.
Proof.
  destruct e as [t op]. unfold sstep. simpl. destruct op as [x|id b| |o pid off]; simpl.
  - done.
  - unfold sbroadcast. destruct (storable b) eqn:E; simpl.
    + rewrite decide_True by (by apply storable_recoverable). done.
    + rewrite decide_False; [by rewrite app_nil_r|]. rewrite <- storable_recoverable. by rewrite E.
  - by rewrite srun_max.
  - destruct (restore_store o t pid off (srun max h)) as [->|(x&t'&_&_&->)]; done.
Qed.

(** A stored packet is kept as long as no cleanup finds it expired. *)
Definition survives (max : Z) (at_ : Z) (later : list (Z * sop)) : Prop := ∀ tc, (tc, SCleanup) ∈ later → (tc ≤ at_ + max)%Z.
Lemma survives_alt max a later : survives max a later ↔ Forall (λ e : Z * sop, match e.2 with SCleanup => bool_decide (e.1 ≤ a + max)%Z | _ => true end = true) later.
Proof.
  rewrite Forall_forall. split.
  - intros H [t []] Hin; simpl; try done. apply bool_decide_eq_true. by apply H.
  - intros H tc Hin. specialize (H _ Hin). by apply bool_decide_eq_true in H.
Qed.
#[global] Instance survives_dec max a later : Decision (survives max a later).
Proof. refine (cast_if (decide (Forall (λ e : Z * sop, match e.2 with SCleanup => bool_decide (e.1 ≤ a + max)%Z | _ => true end = true) later))); by rewrite survives_alt. Defined.
Fixpoint surviving (max : Z) (h : list (Z * sop)) : list (string * Z * bcast) :=
  match h with
  | [] => []
  | (t, SBcast id b) :: h => (if decide (recoverable b ∧ survives max t h) then [(id, t, b)] else []) ++ surviving max h
  | _ :: h => surviving max h
  end.
Lemma survives_snoc max a h e : survives max a (h ++ [e]) ↔ survives max a h ∧ match e.2 with SCleanup => (e.1 ≤ a + max)%Z | _ => True end.
Proof.
  unfold survives. setoid_rewrite elem_of_app. setoid_rewrite elem_of_list_singleton. destruct e as [t op]. simpl. split.
  - intros H. split; [auto|]. destruct op; try done. apply H. by right.
  - intros [H1 H2] tc [Hc|[= -> <-]]; auto.
Qed.
Lemma surviving_elem max h x : x ∈ surviving max h → x ∈ broadcasts h.
Proof.
  induction h as [|[t op] h IH]; [done|]. simpl. unfold broadcasts. simpl. destruct op as [y|id b| |o pid off]; try done.
  rewrite elem_of_app. intros [Hx|Hx].
  - destruct (decide (recoverable b ∧ survives max t h)) as [[Hr _]|]; [|by apply elem_of_nil in Hx]. rewrite decide_True by done. apply elem_of_list_singleton in Hx as ->. by left.
  - destruct (decide (recoverable b)); [right|]; by apply IH.
Qed.
Lemma surviving_snoc max h e : surviving max (h ++ [e]) =
  match e.2 with
  | SCleanup => filter (λ x, (e.1 ≤ x.1.2 + max)%Z) (surviving max h)
  | _ => surviving max h ++ broadcasts [e]
  end.
Proof.
  induction h as [|[t op] h IH]; simpl.
  - destruct e as [t op]. simpl. destruct op as [x|id b| |]; simpl; try done. destruct (decide (recoverable b)) as [Hr|Hr].
    + rewrite decide_True; [by rewrite app_nil_r|]. split; [done|]. intros tc Hc. by apply elem_of_nil in Hc.
    + rewrite decide_False by tauto. by rewrite app_nil_r.
  - destruct op as [x|id b| |]; try done. rewrite IH. destruct e as [t' op']. simpl.
    destruct (decide (recoverable b ∧ survives max t h)) as [[H1 H2]|H1]; simpl.
    + destruct op' as [x'|id' b'| |o' pid' off']; simpl.
      1,2,4: rewrite decide_True by (split; [done|]; apply survives_snoc; done); done.
      rewrite filter_cons. simpl. destruct (decide (t' ≤ t + max)%Z).
      * rewrite decide_True by (split; [done|]; apply survives_snoc; done). done.
      * rewrite decide_False; [done|]. intros [_ Hs]. apply survives_snoc in Hs as [_ Hs]. done.
    + rewrite decide_False; [|intros [Ha Hb]; apply survives_snoc in Hb as [Hb _]; tauto]. simpl. by destruct op'.
Qed.
Lemma filter_fmap_mk (th max : Z) (l : list (string * Z * bcast)) : filter (λ p, ¬ (sp_at p < th - max)%Z) (mk <$> l) = mk <$> filter (λ x : string * Z * bcast, (th ≤ x.1.2 + max)%Z) l.
Proof.
  induction l as [|x l IH]; [done|]. rewrite fmap_cons, !filter_cons, IH. change (sp_at (mk x)) with (x.1.2).
  destruct (decide (th ≤ x.1.2 + max)%Z); [rewrite decide_True by lia|rewrite decide_False by lia]; done.
Qed.
Lemma filter_ordered_drop (th max : Z) (l : list (string * Z * bcast)) : ordered (mk <$> l) → ∃ k, filter (λ x : string * Z * bcast, (th ≤ x.1.2 + max)%Z) l = drop k l.
Proof.
  induction l as [|x l IH]; [by exists 0|]. simpl. intros [H1 H2]. destruct (IH H2) as [k Hk]. rewrite filter_cons.
  destruct (decide (th ≤ x.1.2 + max)%Z) as [Hd|Hd]; [|by exists (S k)]. exists 0. simpl. f_equal. clear -H1 Hd.
  induction l as [|y l IH]; [done|]. rewrite filter_cons, decide_True.
  - f_equal. apply IH. intros q Hq. apply H1. simpl. by right.
  - specialize (H1 (mk y)). simpl in H1. lapply H1; [lia|by left].
Qed.
Lemma drop_app_ex {A} k (l1 l2 : list A) : ∃ k', drop k l1 ++ l2 = drop k' (l1 ++ l2).
Proof. exists (k `min` length l1). rewrite drop_app_le by lia. destruct (decide (k ≤ length l1)); [by rewrite Nat.min_l|]. rewrite Nat.min_r by lia. by rewrite drop_ge, drop_all by lia. Qed.
Lemma srun_packets max h now : timed h now → st_packets (srun max h) = mk <$> surviving max h ∧ ∃ k, surviving max h = drop k (broadcasts h).
Proof.
  revert now. induction h as [|e h IH] using rev_ind; intros now Ht; [split; [done|by exists 0]|]. apply timed_snoc in Ht as [Ht _].
  destruct (IH _ Ht) as [IH1 [k IH2]].
  rewrite srun_snoc, sstep_packets, surviving_snoc, IH1. rewrite broadcasts_app.
  assert (ordered (mk <$> surviving max h)) as Hord. { rewrite IH2, fmap_drop. apply ordered_drop. by eapply timed_ordered. }
  destruct e as [t op]. cbn [fst snd]. destruct op as [x|id b| |o pid off].
  - simpl. rewrite !app_nil_r. split; [done|by exists k].
  - rewrite fmap_app. split; [done|]. rewrite IH2. apply drop_app_ex.
  - simpl. rewrite app_nil_r. rewrite splice_filter by done. split; [apply filter_fmap_mk|].
    destruct (filter_ordered_drop t max _ Hord) as [k' ->]. exists (k + k'). by rewrite IH2, drop_drop.
  - simpl. rewrite !app_nil_r. split; [done|by exists k].
Qed.

(** Sessions. *)
Lemma saved_snoc h e pid x t : saved (h ++ [e]) pid x t ↔
  (e = (t, SPersist x) ∧ se_pid x = pid) ∨ (saved h pid x t ∧ ∀ t' y, e = (t', SPersist y) → se_pid y ≠ pid).
Proof.
  unfold saved. split.
  - intros (h1&h2&E&Hp&Hn). destruct h2 as [|e2 h2 _] using rev_ind.
    + apply app_inj_tail in E as [-> ->]. by left.
    + rewrite app_comm_cons, app_assoc in E. apply app_inj_tail in E as [-> ->]. right. split.
      * exists h1, h2. split; [done|]. split; [done|]. intros t' y Hy. apply (Hn t' y), elem_of_app. by left.
      * intros t' y ->. apply (Hn t' y), elem_of_app. right. by left.
  - intros [[-> Hp]|[(h1&h2&->&Hp&Hn) He]].
    + exists h, []. split; [done|]. split; [done|]. intros t' y Hy. by apply elem_of_nil in Hy.
    + exists h1, (h2 ++ [e]). split; [by rewrite <- app_assoc|]. split; [done|]. intros t' y [Hy|Hy]%elem_of_app; [by apply (Hn t')|].
      apply elem_of_list_singleton in Hy. by apply (He t' y).
Qed.
Lemma saved_in h pid x t : saved h pid x t → (t, SPersist x) ∈ h.
Proof. intros (h1&h2&->&_). apply elem_of_app. right. by left. Qed.
Lemma saved_unique h pid x t y u : saved h pid x t → saved h pid y u → x = y ∧ t = u.
Proof.
  induction h as [|e h IH] using rev_ind.
  - intros (h1&h2&E&_). by destruct h1.
  - rewrite !saved_snoc. intros [[-> Hx]|[Hx Hne]] [[E Hy]|[Hy Hne']].
    + by injection E as -> ->. + by destruct (Hne' _ _ eq_refl). + subst e. by destruct (Hne _ _ eq_refl). + by apply IH.
Qed.
Lemma srun_sessions max h now pid : timed h now →
  (∀ x t, st_sessions (srun max h) !! pid = Some (x, t) → saved h pid x t) ∧
  (∀ x t, saved h pid x t → (now ≤ t + max)%Z → st_sessions (srun max h) !! pid = Some (x, t)).
Proof.
  revert now. induction h as [|e h IH] using rev_ind; intros now Ht.
  { split; [intros x t; simpl; by rewrite lookup_empty|]. intros x t (h1&h2&E&_). by destruct h1. }
  apply timed_snoc in Ht as [Ht Hle]. destruct (IH _ Ht) as [IH1 IH2]. rewrite srun_snoc. destruct e as [te op]. simpl in Hle. simpl in IH2.
  split.
  - intros x t Hx. apply saved_snoc. unfold sstep in Hx. cbn [fst snd] in Hx. destruct op as [y|id b| |o p off].
    + cbn [persist st_sessions] in Hx. apply lookup_insert_Some in Hx as [[Hp [= -> ->]]|[Hp Hx]]; [by left|right].
      split; [auto|]. intros t' z [= _ ->]. done.
    + right. split; [|done]. apply IH1. unfold sbroadcast in Hx. by destruct (storable b).
    + right. split; [|done]. apply IH1. cbn [cleanup st_sessions] in Hx. by apply map_filter_lookup_Some in Hx as [? _].
    + right. split; [|done]. apply IH1. cbn [snd fst] in Hx. destruct (restore_store o te p off (srun max h)) as [E|(y&u&_&_&E)]; rewrite E in Hx; [done|].
      cbn [st_sessions] in Hx. by apply lookup_delete_Some in Hx as [_ ?].
  - intros x t Hx Hnow. apply saved_snoc in Hx as [[E Hp]|[Hx Hne]].
    + injection E as -> ->. unfold sstep. cbn [fst snd persist st_sessions]. by rewrite Hp, lookup_insert.
    + assert (st_sessions (srun max h) !! pid = Some (x, t)) as Hl by (apply IH2; [done|lia]).
      unfold sstep. cbn [fst snd]. destruct op as [y|id b| |o p off].
      * cbn [persist st_sessions]. rewrite lookup_insert_ne; [done|]. by apply (Hne te).
      * unfold sbroadcast. by destruct (storable b).
      * cbn [cleanup st_sessions]. apply map_filter_lookup_Some. split; [done|]. cbn [snd]. rewrite srun_max. lia.
      * destruct (restore_store o te p off (srun max h)) as [->|(y&u&Hy&Hu&->)]; [done|]. cbn [st_sessions].
        rewrite lookup_delete_ne; [done|]. intros ->. rewrite Hl in Hy. injection Hy as <- <-. rewrite srun_max in Hu. lia.
Qed.

(** Finding the offset. *)
Lemma after_offset_spec off ps q : after_offset off ps = Some q ↔ ∃ p1 p, ps = p1 ++ p :: q ∧ sp_id p = off ∧ ∀ p', p' ∈ p1 → sp_id p' ≠ off.
Proof.
  induction ps as [|p ps IH]; simpl.
  - split; [done|]. intros (p1&p&E&_). by destruct p1.
  - destruct (decide (sp_id p = off)) as [Hp|Hp].
    + split.
      * intros [= <-]. exists [], p. split; [done|]. split; [done|]. intros p' Hp'. by apply elem_of_nil in Hp'.
      * intros (p1&p2&E&H1&H2). destruct p1 as [|p1 ps1]; [by injection E as -> ->|]. injection E as <- _. destruct (H2 p); [by left|done].
    + rewrite IH. split.
      * intros (p1&p2&->&H1&H2). exists (p :: p1), p2. split; [done|]. split; [done|]. intros p' [->|Hp']%elem_of_cons; auto.
      * intros (p1&p2&E&H1&H2). destruct p1 as [|p1 ps1]; [injection E as -> ->; done|]. injection E as <- ->. exists ps1, p2. split; [done|]. split; [done|].
        intros p' Hp'. apply H2. by right.
Qed.
Lemma after_offset_none off ps : after_offset off ps = None ↔ ∀ p, p ∈ ps → sp_id p ≠ off.
Proof.
  induction ps as [|p ps IH]; simpl.
  - split; [intros _ p Hp; by apply elem_of_nil in Hp|done].
  - destruct (decide (sp_id p = off)) as [Hp|Hp].
    + split; [done|]. intros H. by destruct (H p (elem_of_list_here _ _)).
    + rewrite IH. setoid_rewrite elem_of_cons. naive_solver.
Qed.
Lemma missed_loop_spec o rooms ps : order_ok o → (∀ x, x ∈ ps → proper x.2) →
  missed_loop (o rooms) (mk <$> ps) = Some (wire_data <$> filter (λ x, concerns rooms x.2) ps).
Proof.
  intros Ho. induction ps as [|x ps IH]; intros Hp; [done|]. rewrite fmap_cons. cbn [missed_loop mk sp_opts sp_data]. rewrite should_include_spec; [|done|apply Hp; by left].
  rewrite IH by (intros y Hy; apply Hp; by right). rewrite filter_cons. f_equal.
  destruct (decide (concerns rooms x.2)) as [Hc|Hc]; [rewrite bool_decide_eq_true_2 by done|rewrite bool_decide_eq_false_2 by done]; done.
Qed.
Lemma surviving_split max h1 t id b h2 : recoverable b → survives max t h2 → surviving max (h1 ++ (t, SBcast id b) :: h2) = surviving max (h1 ++ (t, SBcast id b) :: h2) ∧ (id, t, b) ∈ surviving max (h1 ++ (t, SBcast id b) :: h2).
Proof.
  intros Hr Hs. split; [done|]. induction h1 as [|[t' op] h1 IH]; simpl.
  - rewrite decide_True by done. by left.
  - destruct op as [x|id' b'| |]; try done. apply elem_of_app. by right.
Qed.
Lemma surviving_remembered max h off : (∃ x, x ∈ surviving max h ∧ x.1.1 = off) ↔ remembered max h off.
Proof.
  split.
  - intros (x&Hx&Ho). induction h as [|[t op] h IH]; [by apply elem_of_nil in Hx|]. simpl in Hx.
    assert (remembered max h off → remembered max ((t, op) :: h) off) as Hcons. { intros (h1&u&b&h2&->&?). by exists ((t, op) :: h1), u, b, h2. }
    destruct op as [y|id b| |]; try by apply Hcons, IH. apply elem_of_app in Hx as [Hx|Hx]; [|by apply Hcons, IH].
    destruct (decide (recoverable b ∧ survives max t h)) as [[Hr Hs]|]; [|by apply elem_of_nil in Hx]. apply elem_of_list_singleton in Hx as ->.
    simpl in Ho. subst. by exists [], t, b, h.
  - intros (h1&t&b&h2&->&Hr&Hs). exists (off, t, b). split; [|done]. by apply (surviving_split max h1 t off b h2).
Qed.

(** ** Final statements *)
Lemma broadcasts_proper h : all_proper h → ∀ x, x ∈ broadcasts h → proper x.2.
Proof. intros H x Hx. apply broadcasts_elem in Hx as [Hx _]. by eapply H. Qed.

Lemma restore_cases max h now o pid off : order_ok o → timed h now → all_proper h →
  let r := (restore o now pid off (srun max h)).2 in
  (r = RFresh ∧ ¬ (∃ x t, saved h pid x t ∧ (now ≤ t + max)%Z ∧ remembered max h off)) ∨
  (∃ x t p1 y p2, saved h pid x t ∧ (now ≤ t + max)%Z ∧ surviving max h = p1 ++ y :: p2 ∧ y.1.1 = off ∧
     r = RSession x (wire_data <$> filter (λ z, concerns (se_rooms x) z.2) p2)).
Proof.
  intros Ho Ht Hp. destruct (srun_sessions max h now pid Ht) as [S1 S2]. destruct (srun_packets max h now Ht) as [P1 [k P2]].
  unfold restore. rewrite srun_max. destruct (st_sessions (srun max h) !! pid) as [[x t]|] eqn:El.
  - pose proof (S1 x t eq_refl) as Hs. destruct (Z.ltb_spec (t + max) now) as [Hlt|Hlt].
    + left. split; [done|]. intros (y&u&Hy&Hle&_). destruct (saved_unique _ _ _ _ _ _ Hs Hy) as [-> ->]. lia.
    + rewrite P1. destruct (after_offset off (mk <$> surviving max h)) as [q|] eqn:Ea.
      * right. apply after_offset_spec in Ea as (p1&p&E&Hid&_). apply fmap_app_inv in E as (l1&l2&->&E&Hl).
        symmetry in E. apply fmap_cons_inv in E as (y&l3&->&->&->). exists x, t, l1, y, l3. split; [done|]. split; [done|]. split; [done|]. split; [done|].
        rewrite missed_loop_spec; [done|done|]. intros z Hz. apply (broadcasts_proper _ Hp). apply (surviving_elem max). rewrite Hl. apply elem_of_app. right. by right.
      * left. split; [done|]. rewrite after_offset_none in Ea. intros (y&u&_&_&Hr). apply surviving_remembered in Hr as (z&Hz&Hid).
        apply (Ea (mk z)); [by apply elem_of_list_fmap_1|exact Hid].
  - left. split; [done|]. intros (x&t&Hs&Hle&_). by specialize (S2 x t Hs Hle).
Qed.
Lemma recovered_iff max h now o pid off : order_ok o → timed h now → all_proper h →
  let r := (restore o now pid off (srun max h)).2 in
  ((∃ x l, r = RSession x l) ↔ ∃ x t, saved h pid x t ∧ (now ≤ t + max)%Z ∧ remembered max h off) ∧
  ((∃ x l, r = RSession x l) ∨ r = RFresh).
Proof.
  intros Ho Ht Hp r. destruct (restore_cases max h now o pid off Ho Ht Hp) as [[E Hn]|(x&t&p1&y&p2&Hs&Hle&Hsv&Hid&E)]; fold r in E; rewrite E.
  - split; [|by right]. split; [by intros (x&l&?)|]. intros H. by destruct Hn.
  - split; [|left; eauto]. split; [|eauto]. intros _. exists x, t. split; [done|]. split; [done|]. apply surviving_remembered. exists y. split; [|done].
    rewrite Hsv. apply elem_of_app. right. by left.
Qed.
Lemma NoDup_mid {A B} (f : A → B) l1 x l2 l1' y l2' : NoDup (f <$> (l1 ++ x :: l2)) → l1 ++ x :: l2 = l1' ++ y :: l2' → f x = f y → l1 = l1' ∧ x = y ∧ l2 = l2'.
Proof.
  revert l1'. induction l1 as [|a l1 IH]; intros l1' Hnd E Hf; destruct l1' as [|a' l1']; simpl in *.
  - injection E as -> ->. done.
  - injection E as <- ->. apply NoDup_cons in Hnd as [Hn _]. destruct Hn. rewrite fmap_app, fmap_cons, Hf. apply elem_of_app. right. by left.
  - injection E as -> <-. apply NoDup_cons in Hnd as [Hn _]. destruct Hn. rewrite fmap_app, fmap_cons, Hf. apply elem_of_app. right. by left.
  - injection E as -> E. apply NoDup_cons in Hnd as [_ Hnd]. by destruct (IH l1' Hnd E Hf) as (->&->&->).
Qed.
Lemma replay_exact max h now o pid off x l : order_ok o → timed h now → all_proper h → ids_distinct h →
  (restore o now pid off (srun max h)).2 = RSession x l →
  (∃ t, saved h pid x t) ∧ (∃ y, y ∈ broadcasts h ∧ y.1.1 = off) ∧
  ∀ b1 y b2, broadcasts h = b1 ++ y :: b2 → y.1.1 = off → l = wire_data <$> filter (λ z, concerns (se_rooms x) z.2) b2.
Proof.
  intros Ho Ht Hp Hd E. destruct (restore_cases max h now o pid off Ho Ht Hp) as [[E' _]|(x'&t&p1&y&p2&Hs&Hle&Hsv&Hid&E')]; rewrite E in E'; [done|].
  injection E' as <- ->. split; [eauto|]. destruct (srun_packets max h now Ht) as [_ [k P2]].
  assert (broadcasts h = (take k (broadcasts h) ++ p1) ++ y :: p2) as Eb. { rewrite <- app_assoc, <- Hsv, P2. by rewrite take_drop. }
  split. { exists y. split; [|done]. rewrite Eb. apply elem_of_app. right. by left. }
  intros b1 y' b2 Eb2 Hid2. unfold ids_distinct in Hd. rewrite Eb in Hd, Eb2. by destruct (NoDup_mid (λ x : string * Z * bcast, x.1.1) _ _ _ _ _ _ Hd Eb2 ltac:(congruence)) as (_&_&->).
Qed.

(** Cleanup. *)
Lemma cleanup_sessions now s pid : st_sessions (cleanup now s) !! pid =
  match st_sessions s !! pid with Some (x, t) => if decide (t + st_max s < now)%Z then None else Some (x, t) | None => None end.
Proof.
  cbn [cleanup st_sessions]. destruct (st_sessions s !! pid) as [[x t]|] eqn:E.
  - destruct (decide (t + st_max s < now)%Z) as [H|H].
    + apply map_filter_lookup_None. right. intros [y u] Hy. rewrite E in Hy. injection Hy as <- <-. simpl. lia.
    + apply map_filter_lookup_Some. split; [done|]. simpl. lia.
  - apply map_filter_lookup_None. by left.
Qed.
Lemma cleanup_packets max h now : timed h now →
  st_packets (cleanup now (srun max h)) = filter (λ p, ¬ (sp_at p + max < now)%Z) (st_packets (srun max h)).
Proof.
  intros Ht. cbn [cleanup st_packets]. destruct (srun_packets max h now Ht) as [P1 [k P2]]. rewrite srun_max, splice_filter.
  - apply list_filter_iff. intros p. lia.
  - rewrite P1, P2, fmap_drop. apply ordered_drop. by eapply timed_ordered.
Qed.
Definition no_cleanups (h : list (Z * sop)) : list (Z * sop) := filter (λ e, match e.2 with SCleanup => false | _ => true end = true) h.
Lemma no_cleanups_elem h e : e ∈ no_cleanups h ↔ e ∈ h ∧ e.2 ≠ SCleanup.
Proof. unfold no_cleanups. rewrite elem_of_list_filter. destruct e as [t []]; simpl; naive_solver. Qed.
Lemma no_cleanups_app h1 h2 : no_cleanups (h1 ++ h2) = no_cleanups h1 ++ no_cleanups h2.
Proof. apply filter_app. Qed.
Lemma no_cleanups_snoc h e : no_cleanups (h ++ [e]) = no_cleanups h ++ match e.2 with SCleanup => [] | _ => [e] end.
Proof. rewrite no_cleanups_app. f_equal. destruct e as [t []]; done. Qed.
Lemma no_cleanups_broadcasts h : broadcasts (no_cleanups h) = broadcasts h.
Proof.
  induction h as [|[t op] h IH] using rev_ind; [done|]. rewrite no_cleanups_snoc, !broadcasts_app, IH. f_equal. by destruct op.
Qed.
Lemma no_cleanups_saved h pid x t : saved (no_cleanups h) pid x t ↔ saved h pid x t.
Proof.
  induction h as [|[u op] h IH] using rev_ind; [done|]. rewrite no_cleanups_snoc. simpl.
  assert (saved (h ++ [(u, op)]) pid x t ↔ saved (h ++ [(u, op)]) pid x t) as _ by done.
  destruct op as [y|id b| |o p off]; rewrite ?app_nil_r, ?saved_snoc, ?IH; try done. naive_solver.
Qed.
Lemma no_cleanups_timed h now : timed h now → timed (no_cleanups h) now.
Proof.
  revert now. induction h as [|e h IH] using rev_ind; intros now Ht; [done|]. pose proof Ht as Ht0. apply timed_snoc in Ht as [Ht Hle]. specialize (IH _ Ht).
  assert (∀ now', (e.1 ≤ now')%Z → timed (no_cleanups h) now') as Hmono.
  { intros now' Hn h1 t op h2 E. destruct (IH h1 t op h2 E) as [H1 H2]. split; [lia|done]. }
  rewrite no_cleanups_snoc. destruct e as [te op]. destruct op as [y|id b| |o p off]; simpl.
  3: { rewrite app_nil_r. apply Hmono. done. }
  all: intros h1 t op' h2 E; destruct h2 as [|e2 h2 _] using rev_ind;
    [apply app_inj_tail in E as [E1 [= <- <-]]; split; [done|]; intros e He; by apply elem_of_nil in He|].
  all: rewrite app_comm_cons, app_assoc in E; apply app_inj_tail in E as [E <-].
  all: destruct (IH h1 t op' h2 E) as [H1 H2]; split; [simpl in *; lia|]; intros e [He|He]%elem_of_app; [auto|]; apply elem_of_list_singleton in He as ->; done.
Qed.
Lemma cleanup_harmless max h now o pid off : order_ok o → timed h now → all_proper h → ids_distinct h →
  (∃ x t, saved h pid x t ∧ (now ≤ t + max)%Z) → (∃ y, y ∈ broadcasts h ∧ y.1.1 = off ∧ (now ≤ y.1.2 + max)%Z) →
  (restore o now pid off (srun max h)).2 = (restore o now pid off (srun max (no_cleanups h))).2.
Proof.
  intros Ho Ht Hp Hd (x&t&Hs&Hle) (y&Hy&Hid&Hyl).
  assert (all_proper (no_cleanups h)) as Hp'. { intros u id b Hin. apply no_cleanups_elem in Hin as [Hin _]. by eapply Hp. }
  assert (ids_distinct (no_cleanups h)) as Hd'. { unfold ids_distinct. by rewrite no_cleanups_broadcasts. }
  pose proof (no_cleanups_timed _ _ Ht) as Ht'.
  assert (remembered max h off ∧ remembered max (no_cleanups h) off) as [R1 R2].
  { apply broadcasts_elem in Hy as [Hy Hr]. split.
    - apply elem_of_list_split in Hy as (h1&h2&->). exists h1, y.1.2, y.2, h2. rewrite <- Hid. split; [done|]. split; [done|].
      intros tc Hc. assert (tc ≤ now)%Z; [|lia]. apply (timed_le _ _ (tc, SCleanup) Ht). apply elem_of_app. right. by right.
    - assert ((y.1.2, SBcast y.1.1 y.2) ∈ no_cleanups h) as Hin by (by apply no_cleanups_elem). apply elem_of_list_split in Hin as (h1&h2&E).
      exists h1, y.1.2, y.2, h2. rewrite <- Hid. split; [done|]. split; [done|]. intros tc Hc. exfalso.
      assert ((tc, SCleanup) ∈ no_cleanups h) as [_ Hne]%no_cleanups_elem; [rewrite E; apply elem_of_app; right; by right|done]. }
  destruct (recovered_iff max h now o pid off Ho Ht Hp) as [[_ I1] _]. destruct I1 as (x1&l1&E1); [eauto|].
  destruct (recovered_iff max (no_cleanups h) now o pid off Ho Ht' Hp') as [[_ I2] _]. destruct I2 as (x2&l2&E2); [exists x, t; by rewrite no_cleanups_saved|].
  destruct (replay_exact _ _ _ _ _ _ _ _ Ho Ht Hp Hd E1) as ([t1 S1]&(z&Hz&Hzid)&A1).
  destruct (replay_exact _ _ _ _ _ _ _ _ Ho Ht' Hp' Hd' E2) as ([t2 S2]&_&A2). rewrite no_cleanups_broadcasts in A2. rewrite no_cleanups_saved in S2.
  destruct (saved_unique _ _ _ _ _ _ S1 S2) as [-> _]. rewrite E1, E2. f_equal.
  apply elem_of_list_split in Hz as (b1&b2&Eb). rewrite (A1 _ _ _ Eb Hzid). by rewrite (A2 _ _ _ Eb Hzid).
Qed.
