From Coq Require Import Sorting.Sorted.
From Verif Require Import Base GoTypes Dispatch DispatchSpec.

Definition ack_arg (k : nat) (x : dpacket) : list value := if dp_id x then [VAck k] else [].
Definition final (k : nat) (x : dpacket) : dlog := match dargs k x with VStr ev :: args => LHandler k ev args | _ => LPanic k end.
(** The trace of packet [k], from the state of its goroutine. *)
Definition expected (disc : bool) (k : nat) (x : dpacket) (p : dpc) (l : list dlog) : Prop :=
  match p with
  | DAny => l = []
  | DRun => l = [LAny k (dargs k x)]
  | DFail e => l = [LAny k (dargs k x)] ∧ dp_verdict x = Some e
  | DCheck | DEmit => l = [LAny k (dargs k x)] ∧ dp_verdict x = None
  | DDone =>
      (∃ e, dp_verdict x = Some e ∧ l = [LAny k (dargs k x); LError k e]) ∨
      (dp_verdict x = None ∧ (l = [LAny k (dargs k x); final k x] ∨ (disc = true ∧ l = [LAny k (dargs k x); LIgnored k])))
  end.
Definition disc_in (ls : list dlabel) : bool := existsb (λ l, match l with DDisc => true | _ => false end) ls.
Lemma disc_in_true ls : disc_in ls = true ↔ DDisc ∈ ls.
Proof.
  unfold disc_in. rewrite existsb_exists. split.
  - intros ([] & H & ?); try done. by apply elem_of_list_In.
  - intros H. exists DDisc. split; [by apply elem_of_list_In|done].
Qed.

Lemma drun_snoc ls l : drun (ls ++ [l]) = dstep (drun ls) l.
Proof. unfold drun. by rewrite foldl_app. Qed.
Lemma received_app reg l1 l2 : received reg (l1 ++ l2) = received reg l1 ++ received (reg && negb (existsb (λ l, match l with DUnreg => true | _ => false end) l1)) l2.
Proof.
  revert reg. induction l1 as [|[] l1 IH]; intros reg; cbn; [by rewrite andb_true_r|destruct reg; cbn|..]; rewrite ?IH; try done.
  by destruct reg.
Qed.
Record dinv (ls : list dlabel) (s : dstate) : Prop := {
  dv_conn : ds_conn s = negb (disc_in ls);
  dv_reg : ds_reg s = negb (existsb (λ l, match l with DUnreg => true | _ => false end) ls);
  dv_thr : (ds_thr s).*1 = received true ls;
  dv_trace : ∀ k x p, ds_thr s !! k = Some (x, p) → expected (disc_in ls) k x p (trace_of k (ds_log s));
  dv_bound : ∀ e, e ∈ ds_log s → log_packet e < length (ds_thr s) }.

Lemma expected_mono b k x p l : expected false k x p l → expected b k x p l.
Proof. destruct p; cbn; naive_solver. Qed.
Lemma trace_of_app k l1 l2 : trace_of k (l1 ++ l2) = trace_of k l1 ++ trace_of k l2.
Proof. unfold trace_of. apply filter_app. Qed.
Lemma dstep1_log s k x p e : e ∈ (dstep1 s k x p).2 → log_packet e = k.
Proof.
  destruct p; cbn; try destruct (ds_conn s); cbn; try (by intros ?%elem_of_nil); intros ->%elem_of_list_singleton; try done.
  all: destruct (dargs k x) as [|[] ?]; done.
Qed.
Lemma trace_of_dstep1 s k j x p : trace_of j (dstep1 s k x p).2 = if decide (j = k) then (dstep1 s k x p).2 else [].
Proof.
  assert (∀ l : list dlog, (∀ e, e ∈ l → log_packet e = k) → trace_of j l = if decide (j = k) then l else []) as H.
  { intros l. induction l as [|e l IH]; intros Hl; [by destruct (decide _)|]. unfold trace_of in *.
    assert (log_packet e = k) as He by (apply Hl; left). rewrite filter_cons. rewrite IH by (intros ? ?; apply Hl; by right).
    destruct (decide (j = k)) as [->|]; [by rewrite decide_True|]. by rewrite decide_False by congruence. }
  apply H. apply dstep1_log.
Qed.
Lemma dinv_run ls : dinv ls (drun ls).
Proof.
  induction ls as [|l ls IH] using rev_ind.
  { constructor; try done. by intros e ?%elem_of_nil. }
  rewrite drun_snoc. set (s := drun ls) in *. destruct IH as [Ic Ir It Itr Ib].
  assert (disc_in (ls ++ [l]) = disc_in ls || match l with DDisc => true | _ => false end) as Hd. { unfold disc_in. rewrite existsb_app. cbn. by rewrite orb_false_r. }
  assert (∀ k x p tr, expected (disc_in ls) k x p tr → expected (disc_in (ls ++ [l])) k x p tr) as Hmono.
  { intros. rewrite Hd. destruct (disc_in ls); [done|]. by apply expected_mono. }
  assert (received true (ls ++ [l]) = received true ls ++ received (ds_reg s) [l]) as Hrec. { rewrite received_app. cbn. by rewrite <-Ir. }
  destruct l as [x|k| |]; cbn [dstep].
  - destruct (ds_reg s) eqn:Er.
    + constructor; cbn [ds_conn ds_reg ds_thr ds_log].
      * rewrite Hd, orb_false_r. done.
      * rewrite existsb_app. cbn. rewrite orb_false_r, <-Ir. done.
      * rewrite fmap_app, Hrec, It. done.
      * intros k y p [H|[? H]]%lookup_app_Some; [by apply Hmono, Itr|].
        destruct (k - length (ds_thr s)) as [|j] eqn:Ek; [|by destruct j]. cbn in H. injection H as <- <-. cbn.
        assert (k = length (ds_thr s)) as -> by lia.
        destruct (trace_of _ (ds_log s)) as [|e tl] eqn:E; [done|]. exfalso.
        assert (e ∈ trace_of (length (ds_thr s)) (ds_log s)) as He by (rewrite E; left).
        apply elem_of_list_filter in He as [He1 He2]. apply Ib in He2. lia.
      * intros e He. rewrite app_length. apply Ib in He. lia.
    + constructor; try done.
      * rewrite Hd, orb_false_r. done.
      * rewrite existsb_app. cbn. rewrite orb_false_r, <-Ir. done.
      * rewrite Hrec, It. cbn. by rewrite app_nil_r.
      * intros. by apply Hmono, Itr.
  - destruct (ds_thr s !! k) as [[x p]|] eqn:E.
    + cbv zeta. constructor; cbn [ds_conn ds_reg ds_thr ds_log].
      * rewrite Hd, orb_false_r. done.
      * rewrite existsb_app. cbn. rewrite orb_false_r. done.
      * rewrite list_fmap_insert. cbn. rewrite Hrec, <-It. cbn. rewrite app_nil_r. apply list_insert_id. by rewrite list_lookup_fmap, E.
      * intros j y q Hj. rewrite trace_of_app, trace_of_dstep1. destruct (decide (j = k)) as [->|Hne].
        -- rewrite list_lookup_insert in Hj by (by eapply lookup_lt_Some). injection Hj as <- <-. specialize (Itr _ _ _ E).
           rewrite Hd, orb_false_r. destruct p; cbn in Itr |- *.
           ++ by rewrite Itr.
           ++ rewrite Itr. destruct (dp_verdict x) eqn:Ev; cbn; done.
           ++ destruct Itr as [-> Hv]. left. by exists err.
           ++ destruct Itr as [-> Hv]. rewrite Ic. destruct (disc_in ls) eqn:Edl; cbn; [|done]. right. split; [done|]. right. done.
           ++ destruct Itr as [-> Hv]. right. split; [done|]. by left.
           ++ by rewrite app_nil_r.
        -- rewrite list_lookup_insert_ne in Hj by done. rewrite app_nil_r. by apply Hmono, Itr.
      * intros e. rewrite insert_length. intros [?|He]%elem_of_app; [by apply Ib|]. apply dstep1_log in He as ->. by eapply lookup_lt_Some.
    + constructor; try done.
      * rewrite Hd, orb_false_r. done.
      * rewrite existsb_app. cbn. rewrite orb_false_r. done.
      * rewrite Hrec, It. cbn. by rewrite app_nil_r.
      * intros. by apply Hmono, Itr.
  - constructor; cbn [ds_conn ds_reg ds_thr ds_log]; try done.
    * rewrite Hd, orb_false_r. done.
    * rewrite existsb_app. cbn. by rewrite orb_true_r.
    * rewrite Hrec, It. cbn. by rewrite app_nil_r.
    * intros. by apply Hmono, Itr.
  - constructor; cbn [ds_conn ds_reg ds_thr ds_log]; try done.
    * rewrite Hd. by rewrite orb_true_r.
    * rewrite existsb_app. cbn. by rewrite orb_false_r.
    * rewrite Hrec, It. cbn. by rewrite app_nil_r.
    * intros. by apply Hmono, Itr.
Qed.

(** Whatever the schedule, what has happened to a packet is a beginning of its full trace, and all of it once
    its goroutine has finished. *)
Lemma fate ls k x : received true ls !! k = Some x →
  ∃ y, (y = final k x ∧ dp_verdict x = None ∨ (∃ e, dp_verdict x = Some e ∧ y = LError k e) ∨ (dp_verdict x = None ∧ DDisc ∈ ls ∧ y = LIgnored k)) ∧
       (trace_of k (ds_log (drun ls)) `prefix_of` [LAny k (dargs k x); y] ∧ (idle (drun ls) → trace_of k (ds_log (drun ls)) = [LAny k (dargs k x); y])).
Proof.
  intros Hk. pose proof (dinv_run ls) as I. rewrite <-(dv_thr _ _ I), list_lookup_fmap in Hk. apply fmap_Some in Hk as ([x' p] & E & ->). cbn [fst].
  pose proof (dv_trace _ _ I _ _ _ E) as Ht. assert (idle (drun ls) → p = DDone) as Hidle. { intros H. apply (H x' p). by eapply elem_of_list_lookup_2. }
  assert (∃ y, (y = final k x' ∧ dp_verdict x' = None ∨ (∃ e, dp_verdict x' = Some e ∧ y = LError k e) ∨ (dp_verdict x' = None ∧ DDisc ∈ ls ∧ y = LIgnored k))) as (y0 & Hy0).
  { destruct (dp_verdict x') as [e|] eqn:Ev; [exists (LError k e)|exists (final k x')]; naive_solver. }
  destruct p; cbn in Ht.
  - exists y0. rewrite Ht. split; [done|]. split; [apply prefix_nil|]. intros H. by apply Hidle in H.
  - exists y0. rewrite Ht. split; [done|]. split; [by exists [y0]|]. intros H. by apply Hidle in H.
  - exists y0. destruct Ht as [-> _]. split; [done|]. split; [by exists [y0]|]. intros H. by apply Hidle in H.
  - exists y0. destruct Ht as [-> _]. split; [done|]. split; [by exists [y0]|]. intros H. by apply Hidle in H.
  - exists y0. destruct Ht as [-> _]. split; [done|]. split; [by exists [y0]|]. intros H. by apply Hidle in H.
  - destruct Ht as [(e & Hv & ->)|[Hv [->|[Hd ->]]]].
    + exists (LError k e). split; [right; left; eauto|]. done.
    + exists (final k x'). split; [by left|done].
    + exists (LIgnored k). split; [right; right|done]. split_and!; [done|by apply disc_in_true|done].
Qed.
(** The handlers are called at most once for each packet, with its name and arguments. *)
Lemma handler_once ls k ev args : LHandler k ev args ∈ ds_log (drun ls) →
  ∃ x, received true ls !! k = Some x ∧ dp_verdict x = None ∧ VStr ev :: args = dargs k x ∧
       filter (λ e, log_packet e = k) (ds_log (drun ls)) = [LAny k (dargs k x); LHandler k ev args].
Proof.
  intros H. pose proof (dinv_run ls) as I. pose proof (dv_bound _ _ I _ H) as Hb. cbn in Hb.
  destruct (lookup_lt_is_Some_2 _ _ Hb) as [[x p] E]. pose proof (dv_trace _ _ I _ _ _ E) as Ht.
  assert (LHandler k ev args ∈ trace_of k (ds_log (drun ls))) as H' by by apply elem_of_list_filter.
  exists x. split; [rewrite <-(dv_thr _ _ I), list_lookup_fmap, E; done|].
  change (filter (λ e, log_packet e = k) (ds_log (drun ls))) with (trace_of k (ds_log (drun ls))).
  destruct p; cbn in Ht.
  - rewrite Ht in H'. by apply elem_of_nil in H'.
  - rewrite Ht in H'. by apply elem_of_list_singleton in H'.
  - destruct Ht as [Ht _]. rewrite Ht in H'. by apply elem_of_list_singleton in H'.
  - destruct Ht as [Ht _]. rewrite Ht in H'. by apply elem_of_list_singleton in H'.
  - destruct Ht as [Ht _]. rewrite Ht in H'. by apply elem_of_list_singleton in H'.
  - destruct Ht as [(e & Hv & Ht)|[Hv [Ht|[Hd Ht]]]]; rewrite Ht in H' |- *; apply elem_of_cons in H' as [H'|H'%elem_of_list_singleton]; try done.
    unfold final in *. destruct (dargs k x) as [|[] l]; try done. injection H' as -> ->. done.
Qed.
Lemma exactly_once ls k x ev args : received true ls !! k = Some x → names x ev args → dp_verdict x = None → DDisc ∉ ls → idle (drun ls) →
  trace_of k (ds_log (drun ls)) = [LAny k (dargs k x); LHandler k ev (args ++ if dp_id x then [VAck k] else [])].
Proof.
  intros Hk Hn Hv Hd Hi. destruct (fate ls k x Hk) as (y & Hy & _ & Ht). rewrite (Ht Hi).
  assert (final k x = LHandler k ev (args ++ if dp_id x then [VAck k] else [])) as Hf. { unfold final, dargs. rewrite Hn. done. }
  destruct Hy as [[-> _]|[(e & He & _)|(_ & ? & _)]]; [by rewrite Hf|congruence|done].
Qed.
(** After the disconnection, nothing new is handled: the packets received later are not dispatched. *)
Lemma after_disconnect l1 l2 k ev args : DDisc ∈ l1 → length (received true l1) ≤ k → LHandler k ev args ∉ ds_log (drun (l1 ++ l2)).
Proof.
  intros Hd Hk. assert ((∀ x p, ds_thr (drun (l1 ++ l2)) !! k = Some (x, p) → p ≠ DEmit) ∧ ds_conn (drun (l1 ++ l2)) = false ∧ LHandler k ev args ∉ ds_log (drun (l1 ++ l2))) as (_ & _ & ?); [|done].
  induction l2 as [|l l2 IH] using rev_ind.
  - rewrite app_nil_r. pose proof (dinv_run l1) as I. assert (length (ds_thr (drun l1)) ≤ k) as Hk'. { rewrite <-(dv_thr _ _ I), fmap_length in Hk. done. }
    split_and!.
    + intros x p E. apply lookup_lt_Some in E. lia.
    + rewrite (dv_conn _ _ I). apply disc_in_true in Hd. by rewrite Hd.
    + intros H. apply (dv_bound _ _ I) in H. cbn in H. lia.
  - rewrite app_assoc, drun_snoc. set (s := drun (l1 ++ l2)) in *. destruct IH as (H1 & H2 & H3). destruct l as [x|j| |]; cbn [dstep].
    + destruct (ds_reg s); cbn; [|done]. split_and!; [|done..]. intros y p [H|[_ H]]%lookup_app_Some; [by eapply H1|].
      destruct (k - length (ds_thr s)) as [|i]; [|by destruct i]. by injection H as _ <-.
    + destruct (ds_thr s !! j) as [[x p]|] eqn:E; [|done]. cbn. split_and!; [|done|].
      * intros y q Hq. destruct (decide (j = k)) as [->|]; [|rewrite list_lookup_insert_ne in Hq by done; by eapply H1].
        rewrite list_lookup_insert in Hq by (by eapply lookup_lt_Some). injection Hq as _ <-. destruct p; cbn; try done; [by destruct (dp_verdict x)|]. by rewrite H2.
      * intros [?|H]%elem_of_app; [done|]. destruct (decide (j = k)) as [->|Hne]; [|apply dstep1_log in H; cbn in H; congruence].
        specialize (H1 _ _ E). destruct p; cbn in H; try done; try (by apply elem_of_nil in H); try (by apply elem_of_list_singleton in H).
        rewrite H2 in H. by apply elem_of_list_singleton in H.
    + done.
    + done.
Qed.

Lemma handled_app l1 l2 : handled (l1 ++ l2) = handled l1 ++ handled l2.
Proof. apply omap_app. Qed.
Lemma handled_elem k l : k ∈ handled l → ∃ ev args, LHandler k ev args ∈ l.
Proof. intros (e & He & H)%elem_of_list_omap. destruct e; try done. injection H as ->. eauto. Qed.
(** One packet at a time: handled in the order of reception. *)
Lemma in_order ls : one_at_a_time ls → StronglySorted lt (handled (ds_log (drun ls))).
Proof.
  intros H1.
  assert (StronglySorted lt (handled (ds_log (drun ls))) ∧ ∀ k x p, ds_thr (drun ls) !! k = Some (x, p) → p ≠ DDone → S k = length (ds_thr (drun ls)) ∧ k ∉ handled (ds_log (drun ls))) as [? _]; [|done].
  induction ls as [|l ls IH] using rev_ind.
  - split; [constructor|done].
  - destruct IH as [IH1 IH2]. { intros l1 x l2 ->. apply (H1 l1 x (l2 ++ [l])). by rewrite <-app_assoc. }
    rewrite drun_snoc. set (s := drun ls) in *. pose proof (dinv_run ls) as I. fold s in I. destruct l as [x|j| |]; cbn [dstep]; [..|done|done].
    + destruct (ds_reg s); [|done]. cbn. split; [done|]. intros k y p [H|[Hk H]]%lookup_app_Some Hp.
      * destruct Hp. eapply (H1 ls x []); [done|]. by eapply elem_of_list_lookup_2.
      * destruct (k - length (ds_thr s)) as [|i] eqn:Ek; [|by destruct i]. rewrite app_length. cbn. split; [lia|].
        intros (ev & args & Hb)%handled_elem. apply (dv_bound _ _ I) in Hb. cbn in Hb. lia.
    + destruct (ds_thr s !! j) as [[x p]|] eqn:E; [|done]. cbn [ds_thr ds_log]. rewrite handled_app, insert_length.
      destruct (decide (p = DEmit)) as [->|Hne].
      * destruct (IH2 j x DEmit E) as [Hlen Hnin]; [done|]. split.
        -- assert (∀ k, k ∈ handled (ds_log s) → k < j) as Hlt.
           { intros k Hk. assert (k ≠ j) by (by intros ->). apply handled_elem in Hk as (ev & args & Hb). apply (dv_bound _ _ I) in Hb. cbn in Hb. lia. }
           cbn. destruct (dargs j x) as [|[] tl]; cbn; rewrite ?app_nil_r; try done.
           clear -IH1 Hlt. induction IH1 as [|a l Hl IH Hf]; cbn; [repeat constructor|]. constructor; [apply IH; intros; apply Hlt; by right|].
           rewrite Forall_app. split; [done|]. apply Forall_cons_2; [apply Hlt; left|apply Forall_nil_2].
        -- intros k y q Hq Hqd. destruct (decide (j = k)) as [->|]; [rewrite list_lookup_insert in Hq by (by eapply lookup_lt_Some); by injection Hq as _ <-|].
           rewrite list_lookup_insert_ne in Hq by done. destruct (IH2 k y q Hq Hqd). lia.
      * assert (handled (dstep1 s j x p).2 = []) as ->. { destruct p; cbn; try done; by destruct (ds_conn s). } rewrite app_nil_r. split; [done|].
        intros k y q Hq Hqd. destruct (decide (j = k)) as [->|]; [|rewrite list_lookup_insert_ne in Hq by done; by apply (IH2 k y q)].
        apply (IH2 k x p); [done|]. intros ->. rewrite list_lookup_insert in Hq by (by eapply lookup_lt_Some). by injection Hq as _ <-.
Qed.
