(** Proofs about [ClusterFetch.v]: what the callers get. *)
From Verif Require Import Base GoTypes Rooms RoomsSpec RoomsProofs Adapter AdapterSpec AdapterProofs Cluster ClusterSpec ClusterProofs ClusterReq ClusterReqSpec ClusterReqProofs ClusterExamples ClusterAckProofs ClusterFetch ClusterFetchSpec ClusterFetchProofs ClusterFetchCount.

Section results.
  Context (timeout : Z) (uids : gset string).
  Notation step := (fstep timeout).
  Notation run := (frun timeout uids).
  Notation ok := (Forall (fop_ok uids)).
  Notation hist := (hist timeout uids).
  Notation hfrom := (hist_from timeout).
  Notation total := (total timeout uids).
  Notation called := (called timeout).

  (** *** Calls *)
  Lemma asks_split h1 op h2 op' n cb rid cb' rid' : asks_ok (h1 ++ op :: h2) → op' ∈ h1 ∨ op' ∈ h2 → asks op = Some (n, cb, rid) → asks op' = Some (n, cb', rid') → cb' ≠ cb ∧ rid' ≠ rid.
  Proof.
    intros Ha Hin E E'. assert (Hk : (h1 ++ op :: h2) !! length h1 = Some op) by by apply list_lookup_middle.
    destruct Hin as [Hin|Hin]; apply elem_of_list_lookup in Hin as [i Hi].
    - pose proof (lookup_lt_Some _ _ _ Hi). apply (Ha i (length h1) op' op n cb' rid' cb rid); [by apply lookup_app_l_Some|done|lia|done|done].
    - apply (Ha (length h1 + S i) (length h1) op' op n cb' rid' cb rid); [|done|lia|done|done]. rewrite lookup_app_r by lia. replace (length h1 + S i - length h1) with (S i) by lia. done.
  Qed.
  Lemma evs_req s op n x cb rid : x ∈ evs s op n → req_of x = Some (cb, rid) → asks op = Some (n, cb, rid).
  Proof.
    intros Hx Hr. unfold evs in Hx.
    destruct op as [n' cb' rid' opts pub echo e1 e2 os|n' [cb'|] rid' ev args pub echo|i t o os|n' u rid' args|n' rid'|n' t o u m|n' t on o|n' l]; try (by apply elem_of_nil in Hx).
    - destruct (decide (n' = n)) as [->|]; [|by apply elem_of_nil in Hx]. destruct (fc_nodes s !! n); [|by apply elem_of_nil in Hx]. apply elem_of_list_singleton in Hx as ->. cbn in Hr. by simplify_eq.
    - destruct (decide (n' = n)) as [->|]; [|by apply elem_of_nil in Hx]. apply elem_of_list_singleton in Hx as ->. cbn in Hr. by simplify_eq.
    - destruct (fc_net s !! i) as [[d m]|]; [|by apply elem_of_nil in Hx]. destruct (decide (d = n)); [|by apply elem_of_nil in Hx]. destruct m; by apply elem_of_list_singleton in Hx as ->.
    - destruct (decide (n' = n)); [|by apply elem_of_nil in Hx]. by apply elem_of_list_singleton in Hx as ->.
    - destruct (decide (n' = n)); [|by apply elem_of_nil in Hx]. by apply elem_of_list_singleton in Hx as ->.
    - destruct (decide (n' = n)); [|by apply elem_of_nil in Hx]. by apply elem_of_list_singleton in Hx as ->.
  Qed.
  Lemma evs_one s op n : evs s op n = [] ∨ ∃ y, evs s op n = [y].
  Proof.
    unfold evs. destruct op as [n' cb rid opts pub echo e1 e2 os|n' [cb|] rid ev args pub echo|i t o os|n' u rid args|n' rid|n' t o u m|n' t on o|n' l]; repeat case_match; eauto.
  Qed.
  Lemma run_from h1 h2 : foldl step (run h1) h2 = run (h1 ++ h2).
  Proof. unfold frun. by rewrite foldl_app. Qed.
  Lemma hist_split h0 h n a1 y a2 : hfrom (run h0) h n = a1 ++ y :: a2 → ∃ ha op hb, h = ha ++ op :: hb ∧ hfrom (run h0) ha n = a1 ∧ evs (run (h0 ++ ha)) op n = [y].
  Proof.
    revert h0 a1. induction h as [|op h IH]; intros h0 a1 E; [by destruct a1|]. cbn [hist_from] in E. rewrite <-frun_snoc in E.
    destruct (evs_one (run h0) op n) as [E0|[z E0]]; rewrite E0 in E.
    - destruct (IH (h0 ++ [op]) a1 E) as (ha & op' & hb & -> & E1 & E2). exists (op :: ha), op', hb. split_and!; [done| |by rewrite <-app_assoc in E2]. cbn [hist_from]. by rewrite E0, <-frun_snoc, E1.
    - destruct a1 as [|z' a1]; cbn in E; injection E as -> E.
      + exists [], op, h. rewrite app_nil_r. done.
      + destruct (IH (h0 ++ [op]) a1 E) as (ha & op' & hb & -> & E1 & E2). exists (op :: ha), op', hb. split_and!; [done| |by rewrite <-app_assoc in E2]. cbn [hist_from]. by rewrite E0, <-frun_snoc, E1.
  Qed.
  Lemma evs_timer s op n rid : evs s op n = [HTimer rid] → op = FTimer n rid.
  Proof. unfold evs. destruct op as [n' cb rid' opts pub echo e1 e2 os|n' [cb|] rid' ev args pub echo|i t o os|n' u rid' args|n' rid'|n' t o u m|n' t on o|n' l]; repeat case_match; intros; simplify_eq; try done. Qed.
  Lemma evs_response s op n u r : evs s op n = [HResponse u r] → (n, QResponse u r) ∈ fc_net s.
  Proof.
    unfold evs. destruct op as [n' cb rid' opts pub echo e1 e2 os|n' [cb|] rid' ev args pub echo|i t o os|n' u' rid' args|n' rid'|n' t o u' m|n' t on o|n' l]; repeat case_match; intros; simplify_eq; try done.
    by eapply elem_of_list_lookup_2.
  Qed.

  (** *** Counts *)
  Lemma total_init n rid m : total [] n rid m = 0.
  Proof.
    unfold ClusterFetchCount.total. cbn. unfold held, frun. cbn. case_match eqn:E; [|done]. apply lookup_gset_to_gmap_Some in E as [_ <-]. done.
  Qed.
  Lemma called_none s op n rid : (∀ cb, asks op ≠ Some (n, cb, rid)) → called s op n rid = 0.
  Proof. intros H. unfold ClusterFetchCount.called. destruct (asks op) as [[[n' cb] rid']|] eqn:E; [|done]. rewrite decide_False; [done|]. intros (-> & -> & _). by destruct (H cb). Qed.
  Lemma total_none h n rid m : ok h → n ∈ uids → m ∈ uids → n ≠ m → (∀ op cb, op ∈ h → asks op ≠ Some (n, cb, rid)) → total h n rid m = 0.
  Proof.
    intros Ho Hn Hm Hnm. induction h as [|op h IH] using rev_ind; intros Hno; [apply total_init|].
    assert (total h n rid m = 0) as E. { apply IH; [by apply Forall_app in Ho as [? _]|]. intros op' cb Hop'. apply Hno, elem_of_app. by left. }
    rewrite total_step by (done || lia). rewrite E, called_none; [done|]. intros cb. apply Hno, elem_of_app. right. by left.
  Qed.
  Lemma called_le s op n rid : called s op n rid ≤ 1.
  Proof. unfold ClusterFetchCount.called. destruct (asks op) as [[[]]|]; [|lia]. case_decide; lia. Qed.
  Lemma total_call h1 op h2 n cb rid m : ok (h1 ++ op :: h2) → asks_ok (h1 ++ op :: h2) → asks op = Some (n, cb, rid) → n ∈ uids → m ∈ uids → n ≠ m →
    total (h1 ++ op :: h2) n rid m = called (run h1) op n rid.
  Proof.
    intros Ho Ha E Hn Hm Hnm. induction h2 as [|x h2 IH] using rev_ind.
    - assert (total h1 n rid m = 0) as E0.
      { apply total_none; try done; [by apply Forall_app in Ho as [? _]|]. intros op' cb' Hin E'. by destruct (asks_split h1 op [] op' n cb rid cb' rid Ha (or_introl Hin) E E'). }
      rewrite total_step by (done || lia). by rewrite E0.
    - rewrite app_comm_cons, app_assoc in *. rewrite total_step; try done.
      + rewrite IH, (called_none _ x); [lia| | |].
        * intros cb' E'. rewrite <-app_assoc in Ha. destruct (asks_split h1 op (h2 ++ [x]) x n cb rid cb' rid Ha) as [_ ?]; try done. right. apply elem_of_app. right. by left.
        * by apply Forall_app in Ho as [? _].
        * intros i j y z nn c1 r1 c2 r2 H1 H2. apply (Ha i j); by apply lookup_app_l_Some.
      + rewrite IH; [apply called_le| |].
        * by apply Forall_app in Ho as [? _].
        * intros i j y z nn c1 r1 c2 r2 H1 H2. apply (Ha i j); by apply lookup_app_l_Some.
  Qed.

  (** *** Parts of a result *)
  Definition f_part (rid : string) : hev → option (string * list value) := λ e, match e with
    | HResponse u (RSockets i l) => if decide (i = rid) then Some (u, l) else None
    | HResponse u (REmitted i args) => if decide (i = rid) then Some (u, [VArr args]) else None
    | _ => None end.
  Lemma gathered_parts rid a : gathered rid a = concat (omap (f_part rid) a).*2.
  Proof.
    unfold gathered. f_equal. induction a as [|e a IH]; [done|]. cbn. destruct e as [| u [| |i l|i l]| | | | | |]; try exact IH; cbn; (destruct (decide (i = rid)); [cbn; by f_equal|exact IH]).
  Qed.
  Lemma parts_nodup rid a : (∀ m, length (omap (f_in rid m) a) ≤ 1) → NoDup (omap (f_part rid) a).*1.
  Proof.
    induction a as [|e a IH]; intros H; [by constructor|].
    assert (IH' : NoDup (omap (f_part rid) a).*1). { apply IH. intros m. specialize (H m). cbn in H. destruct (f_in rid m e); cbn in H; lia. }
    cbn. destruct (f_part rid e) as [[u l]|] eqn:E; [|done]. cbn. apply NoDup_cons. split; [|done]. intros Hin.
    assert (f_in rid u e = Some ()) as Ee.
    { destruct e as [| u' [| |i l'|i l']| | | | | |]; try done; cbn in E; destruct (decide (i = rid)) as [->|]; try done; simplify_eq; cbn; by rewrite decide_True. }
    specialize (H u). cbn in H. rewrite Ee in H. cbn in H. apply elem_of_list_fmap in Hin as ([u' l'] & -> & Hin). cbn in *. apply elem_of_list_omap in Hin as (e' & He' & Ep).
    assert (f_in rid u' e' = Some ()) as Ee'.
    { destruct e' as [| u'' [| |i l''|i l'']| | | | | |]; try done; cbn in Ep; destruct (decide (i = rid)) as [->|]; try done; simplify_eq; cbn; by rewrite decide_True. }
    assert (() ∈ omap (f_in rid u') a) as Hin by (apply elem_of_list_omap; by exists e'). destruct (omap (f_in rid u') a); [by apply elem_of_nil in Hin|cbn in H; lia].
  Qed.
  Lemma responses_origin h n u r : ok h → HResponse u r ∈ hist h n → n ∈ uids ∧ u ∈ uids ∧ u ≠ n ∧ given timeout uids h n u r.
  Proof.
    intros Ho Hx. apply hist_elem in Hx as (h1 & op & h2 & -> & Hx).
    assert (evs (run h1) op n = [HResponse u r]) as E. { destruct (evs_one (run h1) op n) as [E|[y E]]; rewrite E in Hx |- *; [by apply elem_of_nil in Hx|]. by apply elem_of_list_singleton in Hx as ->. }
    apply evs_response in E. apply Forall_app in Ho as [Ho _]. destruct (origins timeout uids h1 Ho) as [IN _]. apply IN in E. destruct E as (? & ? & ? & ?). split_and!; try done. by apply given_mono.
  Qed.

  (** *** Knowledge *)
  Lemma knows_dom h n u : n ∈ uids → knows (run h) n u ↔ u ∈ dom (hb_nodes (hrun n timeout (hist h n))).
  Proof.
    intros Hn. destruct (run_node timeout uids h n Hn) as [nd E]. unfold knows. rewrite <-(node_hist _ _ _ _ _ E), elem_of_dom. split.
    - intros (nd' & E' & H). rewrite E in E'. by injection E' as ->.
    - intros H. by exists nd.
  Qed.
  Lemma outcome_hist h n cb : n ∈ uids → outcome (run h) n cb = calls_of (hrun n timeout (hist h n)) cb.
  Proof. intros Hn. destruct (run_node timeout uids h n Hn) as [nd E]. unfold outcome. by rewrite E, (node_hist _ _ _ _ _ E). Qed.

  (** *** One call *)
  Section call.
    Context (h1 : list fop) (op : fop) (h2 : list fop) (n : string) (cb : nat) (rid : string) (e : hev).
    Notation h := (h1 ++ op :: h2).
    Hypothesis Hok : ok h.
    Hypothesis Hask : asks_ok h.
    Hypothesis Hop : asks op = Some (n, cb, rid).
    Hypothesis Hn : n ∈ uids.
    Hypothesis He : evs (run h1) op n = [e].
    Hypothesis Hr : req_of e = Some (cb, rid).
    Notation H1 := (hist h1 n).
    Notation A := (hfrom (run (h1 ++ [op]))).

    Lemma hist_call g : hist (h1 ++ op :: g) n = H1 ++ e :: A g n.
    Proof. rewrite hist_app. cbn [hist_from]. by rewrite He, <-frun_snoc. Qed.
    Lemma call_ok1 : Forall hev_ok H1.
    Proof. apply hist_ok. by apply Forall_app in Hok as [? _]. Qed.
    Lemma call_ok2 : Forall hev_ok (e :: A h2 n).
    Proof. assert (Forall hev_ok (hist h n)) as H by by apply hist_ok. rewrite hist_call in H. by apply Forall_app in H as [_ ?]. Qed.
    Lemma call_foreign x : x ∈ H1 ∨ x ∈ A h2 n → foreign rid cb x.
    Proof.
      intros Hx cb' rid' Hr'. assert (∃ op', (op' ∈ h1 ∨ op' ∈ h2) ∧ asks op' = Some (n, cb', rid')) as (op' & Hin & E).
      { destruct Hx as [Hx|Hx].
        - apply hist_elem in Hx as (ha & op' & hb & -> & Hx). exists op'. split; [left; apply elem_of_app; right; by left|by eapply evs_req].
        - apply hist_from_elem in Hx as (ha & op' & hb & -> & Hx). exists op'. split; [right; apply elem_of_app; right; by left|by eapply evs_req]. }
      by eapply asks_split.
    Qed.
    Lemma call_fresh : fresh_request H1 e (A h2 n).
    Proof. intros e' cb0 rid0 cb' rid' Hin E E'. rewrite Hr in E. injection E as <- <-. apply elem_of_app in Hin. by eapply call_foreign. Qed.

    (** A moment of the history of the server after the call. *)
    Lemma moment a b : A h2 n = a ++ b → b ≠ [] → ∃ ha x hb y b', h2 = ha ++ x :: hb ∧ b = y :: b' ∧ A ha n = a ∧ evs (run (h1 ++ op :: ha)) x n = [y].
    Proof.
      intros E Hb. destruct b as [|y b']; [done|]. destruct (hist_split _ _ _ _ _ _ E) as (ha & x & hb & -> & E1 & E2). exists ha, x, hb, y, b'. split_and!; try done. by rewrite <-app_assoc in E2.
    Qed.
    Lemma known_still g u : g `prefix_of` A h2 n → knows (run h1) n u → ¬ settled n timeout rid (H1 ++ [e]) g u → u ∈ dom (hb_nodes (hrun n timeout (H1 ++ e :: g))).
    Proof.
      intros Hg Hk. pose proof call_ok1 as O1. pose proof call_ok2 as O2. apply Forall_cons in O2 as [Oe O2]. induction g as [|x g IH] using rev_ind; intros Hns.
      - rewrite hrun_snoc. apply knows_dom in Hk; [|done]. rewrite step_nodes_frame; [done|intros ? ? ? ? E|intros ? ? ? E]; by rewrite E in Hr.
      - assert (Hg' : g `prefix_of` A h2 n). { etrans; [|exact Hg]. by apply prefix_app_r. }
        destruct Hg as [b Eb]. assert (Forall hev_ok (g ++ [x])) as O3. { rewrite Eb in O2. by apply Forall_app in O2 as [? _]. }
        apply Forall_app in O3 as [O3 O4]. apply Forall_cons in O4 as [O4 _].
        destruct (known_departs n timeout H1 e g x u) as [Hd|[_ Hd]]; [by apply Forall_app; split; [|by constructor]|done| | |done].
        + apply IH; [done|]. intros Hs. apply Hns. apply settled_snoc. by left.
        + exfalso. apply Hns. apply settled_snoc. right. by right.
    Qed.
    Lemma prefix_ok g : g `prefix_of` A h2 n → Forall hev_ok g ∧ ∀ x, x ∈ g → foreign rid cb x.
    Proof.
      intros [b Eb]. pose proof call_ok2 as O2. apply Forall_cons in O2 as [_ O2]. rewrite Eb in O2. apply Forall_app in O2 as [O2 _]. split; [done|].
      intros x Hx. apply call_foreign. right. rewrite Eb. apply elem_of_app. by left.
    Qed.
    Lemma answer_in g u r : HResponse u r ∈ A g n → g `prefix_of` h2 → resp_rid r = rid → answers rid (HResponse u r) u.
    Proof.
      intros Hx [b Eb] Er. assert (HResponse u r ∈ hist (h1 ++ op :: g) n) as Hy. { rewrite hist_call. apply elem_of_app. right. by right. }
      apply responses_origin in Hy as (_ & _ & _ & Hg).
      - destruct r as [| |i l|i l]; try done; cbn in Er; subst i; exists l; auto.
      - revert Hok. rewrite Eb, app_comm_cons, app_assoc. by intros [? _]%Forall_app.
    Qed.
    Lemma count_in g u : ok (h1 ++ op :: g) → asks_ok (h1 ++ op :: g) → u ∈ uids → n ≠ u →
      requests_way (run (h1 ++ op :: g)) n rid u + held (run (h1 ++ op :: g)) n rid u + responses_way (run (h1 ++ op :: g)) n rid u + length (omap (f_in rid u) (A g n)) = called (run h1) op n rid.
    Proof.
      intros Ho Ha Hu Hnu. rewrite <-(total_call h1 op g n cb rid u) by done. unfold ClusterFetchCount.total. f_equal. rewrite hist_call, omap_app, app_length. cbn.
      assert (total h1 n rid u = 0) as E0.
      { apply total_none; try done; [by apply Forall_app in Ho as [? _]|]. intros op' cb' Hin E'. by destruct (asks_split h1 op g op' n cb rid cb' rid Ha (or_introl Hin) Hop E'). }
      unfold ClusterFetchCount.total in E0. assert (f_in rid u e = None) as ->. { destruct e; done. } lia.
    Qed.

    Lemma in_hist a x : a `prefix_of` A h2 n → x ∈ a → x ∈ hist h n.
    Proof. intros [b Eb] Hx. rewrite hist_call, Eb. apply elem_of_app. right. right. apply elem_of_app. by left. Qed.
    Lemma parts_once a : a `prefix_of` A h2 n → NoDup (omap (f_part rid) a).*1.
    Proof.
      intros Ha. apply parts_nodup. intros m. destruct (decide (m ∈ uids ∧ n ≠ m)) as [[Hm Hnm]|Hno].
      - pose proof (count_in h2 m Hok Hask Hm Hnm) as Hct. pose proof (called_le (run h1) op n rid) as Hle. destruct Ha as [b Eb]. rewrite Eb, omap_app, app_length in Hct. lia.
      - rewrite omap_none; [cbn; lia|]. intros x Hx. apply (in_hist a) in Hx; [|done]. destruct x as [|u' r| | | | | |]; try done. cbn.
        apply responses_origin in Hx as (_ & Hu & Hun & _); [|done]. rewrite decide_False; [done|]. intros [-> _]. apply Hno. split; congruence.
    Qed.
    (** The others are asked. *)
    Section asked.
      Context (local : list value) (isf : bool).
      Hypothesis Hkind : e = HFetch false cb rid local ∧ isf = true ∨ e = HEmit cb rid ∧ local = [] ∧ isf = false.
      Hypothesis Hsome : ∃ u, knows (run h1) n u.
      Lemma call_fate g : g `prefix_of` A h2 n → fate n timeout H1 e cb rid local isf g.
      Proof.
        intros Hg. destruct (prefix_ok g Hg) as [O1 F1]. pose proof call_ok2 as O2. apply Forall_cons in O2 as [Oe _].
        destruct (request_fate n timeout H1 e cb rid local isf) with (a := g) as (_ & _ & ?); try done.
        - apply call_ok1.
        - intros x Hx. apply call_foreign. by left.
        - destruct Hsome as [u Hu]. apply knows_dom in Hu; [|done]. set_solver.
      Qed.
      Lemma call_outcome : outcome (run h) n cb = calls_of (hrun n timeout (H1 ++ e :: A h2 n)) cb.
      Proof. by rewrite outcome_hist, hist_call. Qed.

      Lemma asked_ok l : outcome (run h) n cb = [CalledOk l] → ∃ a, a `prefix_of` A h2 n ∧ l = local ++ concat (omap (f_part rid) a).*2 ∧
        ∀ u, knows (run h1) n u → u ∈ (omap (f_part rid) a).*1 ∨ ∃ g, g `prefix_of` h2 ∧ ¬ knows (run (h1 ++ op :: g)) n u.
      Proof.
        rewrite call_outcome. intros Hl. destruct (call_fate (A h2 n)) as [q Hp|a1 x a2 E Hc Hnc Ht _ Hcalls|a1 a2 E Hc Ht _ Hcalls]; [done| | |].
        { by rewrite (pe_calls _ _ _ _ _ _ _ _ _ _ Hp) in Hl. }
        2: { by rewrite Hcalls in Hl. }
        rewrite Hcalls in Hl. injection Hl as <-. exists (a1 ++ [x]). split_and!.
        - exists a2. by rewrite <-app_assoc.
        - by rewrite gathered_parts.
        - intros u Hu. assert (Hu' := Hu). apply knows_dom in Hu'; [|done]. destruct (Hc u Hu') as (b1 & y & b2 & Eb & [Hy|Hy]).
          + left. destruct Hy as (l & [->| ->]).
            * apply elem_of_list_fmap. exists (u, l). split; [done|]. apply elem_of_list_omap. eexists. split; [rewrite Eb; apply elem_of_app; right; by left|]. cbn. by rewrite decide_True.
            * apply elem_of_list_fmap. exists (u, [VArr l]). split; [done|]. apply elem_of_list_omap. eexists. split; [rewrite Eb; apply elem_of_app; right; by left|]. cbn. by rewrite decide_True.
          + right. assert (A h2 n = b1 ++ y :: (b2 ++ a2)) as E'. { rewrite E, cons_middle, app_assoc, Eb, <-app_assoc. done. }
            destruct (hist_split _ _ _ _ _ _ E') as (ha & x' & hb & -> & E1 & E2). exists (ha ++ [x']). split; [exists hb; by rewrite <-app_assoc|].
            rewrite knows_dom by done. rewrite <-app_assoc in E2. cbn in E2.
            assert (hist (h1 ++ op :: ha ++ [x']) n = ((H1 ++ [e]) ++ b1) ++ [y]) as Eh.
            { rewrite app_comm_cons, app_assoc, hist_snoc, E2, hist_call, E1. by rewrite <-!app_assoc. }
            assert (Forall hev_ok (hist (h1 ++ op :: ha ++ [x']) n)) as Oh.
            { apply hist_ok. revert Hok. rewrite (cons_middle x' ha hb), !app_comm_cons, !app_assoc. by intros [? _]%Forall_app. }
            rewrite Eh in Oh |- *. destruct Hy as [(t & o & -> & _)|(t & on & o & t0 & m & -> & Hlast & Hgt)].
            * exact (closed_unknown n timeout _ t o u Oh).
            * exact (silent_unknown n timeout _ t on o u t0 m Oh Hlast Hgt).
      Qed.
      Lemma asked_err l : outcome (run h) n cb = [CalledErr l] → ∃ ha hb u, h2 = ha ++ FTimer n rid :: hb ∧ knows (run h1) n u ∧ knows (run (h1 ++ op :: ha)) n u ∧
        l = (if isf then [] else concat (omap (f_part rid) (A ha n)).*2) ∧ length (omap (f_in rid u) (A ha n)) = 0 ∧ outcome (run (h1 ++ op :: ha)) n cb = [].
      Proof.
        rewrite call_outcome. intros Hl. destruct (call_fate (A h2 n)) as [q Hp|a1 x a2 E Hc Hnc Ht _ Hcalls|a1 a2 E Hc Ht _ Hcalls]; [done| | |].
        { by rewrite (pe_calls _ _ _ _ _ _ _ _ _ _ Hp) in Hl. }
        { by rewrite Hcalls in Hl. }
        rewrite Hcalls in Hl. injection Hl as <-.
        destruct (call_fate a1) as [q Hp|b1 x b2 Eb Hcb _ _ _ _|b1 b2 Eb _ _ _ _]; [by eexists| | |].
        2: { exfalso. apply Hc. rewrite Eb, cons_middle, app_assoc. by apply complete_mono. }
        2: { exfalso. apply Ht. rewrite Eb. apply elem_of_app. right. by left. }
        destruct (set_choose_L (cq_missing q)) as [u Hu]; [apply (pe_ne _ _ _ _ _ _ _ _ _ _ Hp)|].
        destruct (pe_missing _ _ _ _ _ _ _ _ _ _ Hp u Hu) as (Hu1 & Hu2 & Hu3).
        destruct (hist_split _ _ _ _ _ _ E) as (ha & x' & hb & Eh & E1 & E2). apply evs_timer in E2 as ->.
        exists ha, hb, u. split_and!; [done|by apply knows_dom|apply knows_dom; [done|]; by rewrite hist_call, E1| | |].
        - by rewrite E1, gathered_parts.
        - rewrite omap_none; [done|]. intros y Hy. destruct (f_in rid u y) as [[]|] eqn:Ey; [|done]. exfalso. apply Hu2. rewrite E1 in Hy.
          destruct y as [|u' r| | | | | |]; try done. cbn in Ey. destruct (decide (u' = u ∧ resp_rid r = rid)) as [[-> Hrid]|]; [|done].
          assert (answers rid (HResponse u r) u). { apply (answer_in ha); [by rewrite E1|rewrite Eh; by apply prefix_app_r|done]. }
          apply elem_of_list_split in Hy as (c1 & c2 & ->). exists c1, (HResponse u r), c2. auto.
        - by rewrite outcome_hist, hist_call, E1, (pe_calls _ _ _ _ _ _ _ _ _ _ Hp).
      Qed.
      Lemma asked_err_at l : outcome (run h) n cb = [CalledErr l] → ∃ j u a, length h1 < j ∧ h !! j = Some (FTimer n rid) ∧ outcome (run (take j h)) n cb = [] ∧ knows (run h1) n u ∧ knows (run (take j h)) n u ∧
        (called (run h1) op n rid = 1 → outstanding timeout uids h (length h1) n j rid u) ∧ a `prefix_of` A h2 n ∧ l = (if isf then [] else concat (omap (f_part rid) a).*2).
      Proof.
        intros Hl. destruct (asked_err l Hl) as (ha & hb & u & E2 & U1 & U2 & E & Hz & Hcl).
        assert (Eh : h = (h1 ++ op :: ha) ++ FTimer n rid :: hb) by (rewrite E2; by rewrite <-app_assoc).
        assert (Ht : take (length (h1 ++ op :: ha)) h = h1 ++ op :: ha) by (rewrite Eh; apply take_app).
        exists (length (h1 ++ op :: ha)), u, (A ha n). rewrite Ht. split_and!; try done.
        - rewrite app_length. cbn. lia.
        - rewrite Eh. by apply list_lookup_middle.
        - intros Hc. unfold outstanding. rewrite Ht, take_app. split_and!; try done. intros Hu.
          assert (n ≠ u) as Hnu. { apply not_eq_sym. apply (known_not_self n timeout H1 u); [apply call_ok1|]. by apply knows_dom in U1. }
          assert (ok (h1 ++ op :: ha) ∧ asks_ok (h1 ++ op :: ha)) as [Ho' Ha'].
          { rewrite <-Ht. split; [by apply Forall_take|]. intros i i' x y nn c1 r1 c2 r2 X1 X2. apply lookup_take_Some in X1 as [X1 _], X2 as [X2 _]. by apply (Hask i i'). }
          pose proof (count_in ha u Ho' Ha' Hu Hnu) as Hct. rewrite Hz, Hc in Hct.
          destruct (decide (held (run (h1 ++ op :: ha)) n rid u = 0)) as [H0|H0]; [left; lia|right]. rewrite held_iff in H0. unfold held in Hct. destruct (fc_nodes (run (h1 ++ op :: ha)) !! u) as [nd|] eqn:End; [|exfalso; apply H0; intros (? & ? & _); congruence].
          destruct (fn_acks nd !! (n, rid)) as [[]|] eqn:Ea; [exfalso; apply H0; intros (? & ? & ?); simplify_eq|by exists nd|exfalso; apply H0; intros (? & ? & ?); simplify_eq].
        - rewrite E2, hist_from_app. by apply prefix_app_r.
      Qed.
      Lemma asked_complete : (∀ u, knows (run h1) n u → (u ∈ uids ∧ requests_way (run h) n rid u = 0 ∧ held (run h) n rid u = 0 ∧ responses_way (run h) n rid u = 0) ∨ ∃ g, g `prefix_of` h2 ∧ ¬ knows (run (h1 ++ op :: g)) n u) →
        called (run h1) op n rid = 1 → FTimer n rid ∉ h2 → ∃ l, outcome (run h) n cb = [CalledOk l].
      Proof.
        rewrite call_outcome. intros Hall Hcl Hnt. destruct (call_fate (A h2 n)) as [q Hp|a1 x a2 E Hc Hnc Ht _ Hcalls|a1 a2 E Hc Ht _ Hcalls]; [done| |by eexists|].
        2: { exfalso. destruct (hist_split _ _ _ _ _ _ E) as (ha & x' & hb & Eh & E1 & E2). apply evs_timer in E2 as ->. apply Hnt. rewrite Eh. apply elem_of_app. right. by left. }
        exfalso. destruct (set_choose_L (cq_missing q)) as [u Hu]; [apply (pe_ne _ _ _ _ _ _ _ _ _ _ Hp)|].
        destruct (pe_missing _ _ _ _ _ _ _ _ _ _ Hp u Hu) as (Hu1 & Hu2 & Hu3). assert (Hk : knows (run h1) n u) by by apply knows_dom.
        destruct (Hall u Hk) as [(Hin & Z1 & Z2 & Z3)|(g & Hg & Hng)].
        - assert (n ≠ u) as Hnu. { apply not_eq_sym. apply (known_not_self n timeout H1 u); [apply call_ok1|done]. }
          pose proof (count_in h2 u Hok Hask Hin Hnu) as Hct. rewrite Z1, Z2, Z3, Hcl in Hct. cbn in Hct.
          destruct (omap (f_in rid u) (A h2 n)) as [|[] ?] eqn:Eo; [done|]. assert (() ∈ omap (f_in rid u) (A h2 n)) as Hy by (rewrite Eo; by left).
          apply elem_of_list_omap in Hy as (y & Hy & Ey). destruct y as [|u' r| | | | | |]; try done. cbn in Ey. destruct (decide (u' = u ∧ resp_rid r = rid)) as [[-> Hrid]|]; [|done].
          assert (answers rid (HResponse u r) u) by (by apply (answer_in h2)). apply Hu2.
          apply elem_of_list_split in Hy as (c1 & c2 & Ec). exists c1, (HResponse u r), c2. auto.
        - apply Hng. rewrite knows_dom, hist_call by done. destruct Hg as [g' Eg]. rewrite Eg, hist_from_app, run_from in Hu2.
          apply known_still; [rewrite Eg, hist_from_app; by apply prefix_app_r|done|]. intros (c1 & y & c2 & Ec & Hy). apply Hu2. rewrite Ec. eexists c1, y, _. split; [by rewrite <-app_assoc|done].
      Qed.
      Lemma asked_once : outcome (run h) n cb = [] ∨ ∃ c, outcome (run h) n cb = [c].
      Proof.
        rewrite call_outcome. destruct (call_fate (A h2 n)) as [q Hp|a1 x a2 E Hc Hnc Ht _ Hcalls|a1 a2 E Hc Ht _ Hcalls]; [done|left; apply (pe_calls _ _ _ _ _ _ _ _ _ _ Hp)|right; eauto|right; eauto].
      Qed.
      Lemma asked_timer : FTimer n rid ∈ h2 → outcome (run h) n cb ≠ [].
      Proof.
        rewrite call_outcome. intros Hin. destruct (call_fate (A h2 n)) as [q Hp|a1 x a2 E Hc Hnc Ht _ Hcalls|a1 a2 E Hc Ht _ Hcalls]; [done| |by rewrite Hcalls|by rewrite Hcalls].
        exfalso. apply (pe_timer _ _ _ _ _ _ _ _ _ _ Hp). apply elem_of_list_split in Hin as (c1 & c2 & ->). rewrite hist_from_app. cbn [hist_from evs]. apply elem_of_app. right. rewrite decide_True by done. by left.
      Qed.
    End asked.

    Lemma done_stays c s a : isolated rid cb s → tidy rid cb s → view rid cb s = (None, c) → Forall hev_ok a → (∀ x, x ∈ a → foreign rid cb x) →
      calls_of (foldl (hstep n timeout) s a) cb = c.
    Proof.
      revert s. induction a as [|x a IH]; intros s Hi Ht Hv Ha Hf; [by injection Hv|]. apply Forall_cons in Ha as [Hx Ha].
      destruct (step_view n timeout rid cb x s Hx) as (? & ? & Hv'); [apply Hf; by left|done|done|]. cbn [foldl]. apply IH; [done|done| |done|intros y Hy; apply Hf; by right].
      rewrite Hv', Hv. destruct x as [? ? ? []| ? []| | | | | |]; cbn; try done; by case_decide.
    Qed.
    Lemma alone local : (∃ loc, e = HFetch loc cb rid local ∧ (loc = true ∨ ∀ u, ¬ knows (run h1) n u)) ∨ (e = HEmit cb rid ∧ local = [] ∧ ∀ u, ¬ knows (run h1) n u) →
      outcome (run h) n cb = [CalledOk local].
    Proof.
      intros Hc. rewrite outcome_hist, hist_call by done. unfold hrun. rewrite foldl_app. cbn [foldl]. fold (hrun n timeout H1).
      destruct (before_request n timeout H1 rid cb call_ok1) as (Hi & Ht & Hv). { intros x Hx. apply call_foreign. by left. }
      assert (Hnone : (∀ u, ¬ knows (run h1) n u) → hb_nodes (hrun n timeout H1) = ∅).
      { intros Hno. apply dom_empty_inv_L, set_eq. intros u. rewrite <-knows_dom by done. split; [by intros ?%Hno|set_solver]. }
      destruct (prefix_ok (A h2 n)) as [O2 F2]; [done|].
      apply done_stays; try done.
      all: destruct Hc as [(loc & -> & Hc)|(-> & -> & Hc)]; cbn [hstep]; unfold fetch, server_emit, server_count; cbv zeta.
      all: try (rewrite decide_True by (by rewrite (Hnone Hc), map_size_empty)).
      all: try (assert ((loc || bool_decide (S (size (hb_nodes (hrun n timeout H1))) - 1 = 0)) = true) as -> by
        (apply orb_true_iff; destruct Hc as [|Hc]; [by left|right]; apply bool_decide_eq_true_2; rewrite (Hnone Hc), map_size_empty; lia)).
      all: try done.
      all: rewrite hcall_view, decide_True by done; unfold view in Hv; injection Hv as -> ->; done.
    Qed.
  End call.

  (** *** Statements *)
  Lemma split_at (h : list fop) k op : h !! k = Some op → h = take k h ++ op :: drop (S k) h.
  Proof. intros E. symmetry. by apply take_drop_middle. Qed.
  Lemma prefix_moment (h : list fop) k op g : h !! k = Some op → g `prefix_of` drop (S k) h → ∃ j, k < j ∧ j ≤ length h ∧ take k h ++ op :: g = take j h.
  Proof.
    intros E [g' Eg]. pose proof (lookup_lt_Some _ _ _ E). exists (S k + length g). assert (length (drop (S k) h) = length g + length g') as El by (rewrite Eg; apply app_length). rewrite drop_length in El.
    split_and!; [lia|lia|]. rewrite (split_at h k op E) at 2. rewrite Eg. assert (length (take k h) = k) as El2 by (rewrite take_length; lia).
    replace (S k + length g) with (length (take k h ++ op :: g)) by (rewrite app_length; cbn; lia). rewrite app_comm_cons, app_assoc. by rewrite take_app.
  Qed.
  Lemma moment_prefix (h : list fop) k op j : h !! k = Some op → k < j → ∃ g, g `prefix_of` drop (S k) h ∧ take k h ++ op :: g = take j h.
  Proof.
    intros E Hj. pose proof (lookup_lt_Some _ _ _ E). exists (take (j - S k) (drop (S k) h)). split; [exists (drop (j - S k) (drop (S k) h)); by rewrite take_drop|].
    assert (length (take k h) = k) as El by (rewrite take_length; lia). rewrite (split_at h k op E) at 3. rewrite take_app_ge, El by lia. destruct (j - k) as [|j'] eqn:Ej; [lia|].
    replace (j - S k) with j' by lia. done.
  Qed.

  Section fetch.
    Context (h : list fop) (k : nat) (n : string) (cb : nat) (rid : string) (opts : option bopts) (pub echo : bool) (e1 e2 : order) (os : orders).
    Notation op := (FFetch n cb rid opts pub echo e1 e2 os).
    Hypothesis Hok : ok h.
    Hypothesis Hask : asks_ok h.
    Hypothesis Hk : h !! k = Some op.
    Notation h1 := (take k h).
    Notation h2 := (drop (S k) h).
    Lemma fetch_op : n ∈ uids ∧ orders_ok os ∧ ok (h1 ++ op :: h2) ∧ asks_ok (h1 ++ op :: h2).
    Proof.
      assert (fop_ok uids op) as (? & _ & _ & ?). { rewrite Forall_lookup in Hok. by eapply Hok. }
      rewrite <-(split_at h k op Hk). done.
    Qed.
    Lemma fetch_evs : ∃ nd, fc_nodes (run h1) !! n = Some nd ∧ evs (run h1) op n = [fetch_ev nd cb rid opts os] ∧ describes own_socket (fn_ns nd) opts (local_details <$> fetch_sockets os opts (fn_ns nd)).
    Proof.
      destruct fetch_op as (Hn & Hos & Ho & _). destruct (run_node timeout uids h1 n Hn) as [nd E]. exists nd. split_and!; [done| |].
      - cbn [evs]. rewrite decide_True, E by done. done.
      - destruct (query_spec os opts (fn_ns nd)) as [Q1 Q2]; [done| |eexists; split_and!; [by apply Forall2_fmap_r, Forall_Forall2_diag, Forall_true|done|done]]. apply Forall_app in Ho as [Ho _]. exact (run_wf _ _ _ _ _ Ho E).
    Qed.
    Lemma fetch_called nd : fc_nodes (run h1) !! n = Some nd → ¬ local_opts opts → (∃ u, knows (run h1) n u) → called (run h1) op n rid = if pub then 1 else 0.
    Proof.
      intros E Hl [u (nd' & E' & Hu)]. unfold ClusterFetchCount.called. cbn [asks]. rewrite (asking_fetch timeout _ _ _ _ _ _ _ _ _ _ nd E).
      rewrite E in E'. injection E' as <-. assert (is_local opts = false) as ->. { apply not_true_is_false. by rewrite local_opts_iff. }
      rewrite bool_decide_eq_false_2. 2: { intros Hz. rewrite Hz, lookup_empty in Hu. by destruct Hu. }
      destruct pub; [by rewrite decide_True|]. rewrite decide_False; [done|]. by intros (_ & _ & ?).
    Qed.
    Lemma parts_fetched a : a `prefix_of` hfrom (run (h1 ++ [op])) h2 n → Forall (fetched timeout uids h k n opts) (omap (f_part rid) a) ∧ NoDup (omap (f_part rid) a).*1.
    Proof.
      intros [b Eb]. destruct fetch_op as (Hn & Hos & Ho & Ha). destruct fetch_evs as (nd & End & Ee & _).
      assert (Hin : ∀ x, x ∈ a → x ∈ hist h n). { intros x Hx. rewrite (split_at h k op Hk) at 1. eapply in_hist; [done|by exists b|done]. }
      split.
      - apply Forall_forall. intros [u v] Hp. apply elem_of_list_omap in Hp as (x & Hx & Ex). apply Hin in Hx. destruct x as [|u' r| | | | | |]; try done. cbn in Ex.
        apply responses_origin in Hx as (_ & Hu & Hun & Hg); [|done]. destruct r as [| |i l|i l]; try done; (destruct (decide (i = rid)) as [->|]; [|done]); simplify_eq; unfold fetched; cbn [fst snd].
        + split_and!; [done|done|]. destruct Hg as (k' & cb' & opts' & echo' & e1' & e2' & os' & Hk' & j & nd' & ? & ? & ? & ?).
          destruct (decide (k' = k)) as [->|Hne]. { rewrite Hk in Hk'. inversion Hk'; subst. by exists j, nd'. }
          exfalso. by destruct (Hask k' k _ _ n cb' rid cb rid Hk' Hk Hne eq_refl eq_refl).
        + exfalso. destruct Hg as (k' & cb' & ev & args0 & echo' & Hk' & _). destruct (decide (k' = k)) as [->|Hne]; [by rewrite Hk in Hk'|].
          by destruct (Hask k' k _ _ n cb' rid cb rid Hk' Hk Hne eq_refl eq_refl).
      - eapply (parts_once h1 op h2 n cb rid); try done. by exists b.
    Qed.
    Lemma fetch_cases : (local_opts opts ∨ ∀ u, ¬ knows (run h1) n u) ∨ (¬ local_opts opts ∧ ∃ u, knows (run h1) n u).
    Proof.
      destruct (is_local opts) eqn:El; [left; left; by apply local_opts_iff|]. assert (Hl : ¬ local_opts opts). { rewrite <-local_opts_iff. by rewrite El. }
      destruct fetch_op as (Hn & _). destruct (decide (dom (hb_nodes (hrun n timeout (hist h1 n))) = ∅)) as [Hd|Hd].
      - left. right. intros u Hu. apply knows_dom in Hu; [|done]. rewrite Hd in Hu. by apply not_elem_of_empty in Hu.
      - right. split; [done|]. apply set_choose_L in Hd as [u Hu]. exists u. by apply knows_dom.
    Qed.
    Lemma fetch_alone : local_opts opts ∨ (∀ u, ¬ knows (run h1) n u) → ∃ nd local, fc_nodes (run h1) !! n = Some nd ∧ describes own_socket (fn_ns nd) opts local ∧
      outcome (run h) n cb = [CalledOk local] ∧ fc_net (run (take (S k) h)) = fc_net (run h1).
    Proof.
      intros Hc. destruct fetch_op as (Hn & Hos & Ho & Ha). destruct fetch_evs as (nd & End & Ee & Hd). exists nd, (local_details <$> fetch_sockets os opts (fn_ns nd)). split_and!; [done|done| |].
      - rewrite (split_at h k op Hk) at 1. eapply alone; try done. left. exists (is_local opts). split; [done|]. rewrite local_opts_iff. done.
      - rewrite (take_S_r _ _ _ Hk), frun_snoc, step_net. cbn [kept sends]. rewrite (asking_fetch timeout _ _ _ _ _ _ _ _ _ _ nd End).
        destruct (is_local opts) eqn:El; [by rewrite app_nil_r|]. destruct Hc as [Hc|Hc]; [by rewrite <-local_opts_iff, El in Hc|].
        rewrite bool_decide_eq_true_2; [by rewrite app_nil_r|]. apply map_empty. intros u. destruct (hb_nodes (fn_hb nd) !! u) eqn:Eu; [|done]. destruct (Hc u). exists nd. by rewrite Eu.
    Qed.
    Lemma fetch_ev_asked nd : ¬ local_opts opts → fetch_ev nd cb rid opts os = HFetch false cb rid (local_details <$> fetch_sockets os opts (fn_ns nd)).
    Proof. intros Hl. unfold fetch_ev. destruct (is_local opts) eqn:El; [|done]. destruct Hl. by apply local_opts_iff. Qed.
    Lemma fetch_ok l : outcome (run h) n cb = [CalledOk l] → ∃ nd local parts, fc_nodes (run h1) !! n = Some nd ∧ describes own_socket (fn_ns nd) opts local ∧ l = local ++ concat parts.*2 ∧
      NoDup parts.*1 ∧ Forall (fetched timeout uids h k n opts) parts ∧ (local_opts opts → parts = []) ∧ (¬ local_opts opts → covers timeout uids h k n parts.*1).
    Proof.
      intros Hl. destruct fetch_cases as [Hc|[Hc Hs]].
      - destruct (fetch_alone Hc) as (nd & local & E & Hd & Ho & _). rewrite Ho in Hl. injection Hl as <-. exists nd, local, []. split_and!; [done|done|by rewrite app_nil_r|constructor|constructor|done|].
        intros Hnl. destruct Hc as [Hc|Hc]; [done|]. intros u Hu. by apply Hc in Hu.
      - destruct fetch_op as (Hn & Hos & Ho & Ha). destruct fetch_evs as (nd & End & Ee & Hd). rewrite fetch_ev_asked in Ee by done.
        rewrite (split_at h k op Hk) in Hl. destruct (asked_ok h1 op h2 n cb rid (HFetch false cb rid (local_details <$> fetch_sockets os opts (fn_ns nd)))) with (l := l) (local := local_details <$> fetch_sockets os opts (fn_ns nd)) (isf := true) (1 := Ho) (2 := Ha) (5 := Ee) as (a & Hpa & -> & Hcov); try done; [by left|].
        destruct (parts_fetched a Hpa) as [P1 P2]. exists nd, (local_details <$> fetch_sockets os opts (fn_ns nd)), (omap (f_part rid) a). split_and!; try done.
        intros _ u Hu. destruct (Hcov u Hu) as [?|(g & Hg & Hng)]; [by left|right].
        destruct (prefix_moment h k op g Hk Hg) as (j & ? & ? & Ej). exists j. rewrite <-Ej. done.
    Qed.
    Lemma fetch_err l : outcome (run h) n cb = [CalledErr l] → l = [] ∧ ∃ j u, k < j ∧ h !! j = Some (FTimer n rid) ∧ outcome (run (take j h)) n cb = [] ∧ knows (run h1) n u ∧ knows (run (take j h)) n u ∧
      (pub = true → outstanding timeout uids h k n j rid u).
    Proof.
      intros Hl. destruct fetch_cases as [Hc|[Hc Hs]].
      { destruct (fetch_alone Hc) as (nd & local & E & Hd & Ho & _). by rewrite Ho in Hl. }
      destruct fetch_op as (Hn & Hos & Ho & Ha). destruct fetch_evs as (nd & End & Ee & Hd). rewrite fetch_ev_asked in Ee by done.
      rewrite (split_at h k op Hk) in Hl. pose proof (lookup_lt_Some _ _ _ Hk) as Hlt. assert (length h1 = k) as El by (rewrite take_length; lia).
      destruct (asked_err_at h1 op h2 n cb rid (HFetch false cb rid (local_details <$> fetch_sockets os opts (fn_ns nd)))) with (l := l) (local := local_details <$> fetch_sockets os opts (fn_ns nd)) (isf := true) (1 := Ho) (2 := Ha) (5 := Ee) as (j & u & a & X1 & X2 & X3 & X4 & X5 & X6 & X7 & X8); try done; [by left|].
      rewrite <-(split_at h k op Hk), El in *. split; [done|]. exists j, u. split_and!; try done. intros Hpub. apply X6. rewrite (fetch_called nd) by done. by rewrite Hpub.
    Qed.
    Lemma fetch_once : length (outcome (run h) n cb) ≤ 1.
    Proof.
      destruct fetch_cases as [Hc|[Hc Hs]].
      { destruct (fetch_alone Hc) as (nd & local & E & Hd & Ho & _). by rewrite Ho. }
      destruct fetch_op as (Hn & Hos & Ho & Ha). destruct fetch_evs as (nd & End & Ee & Hd). rewrite fetch_ev_asked in Ee by done.
      rewrite (split_at h k op Hk).
      destruct (asked_once h1 op h2 n cb rid (HFetch false cb rid (local_details <$> fetch_sockets os opts (fn_ns nd)))) with (local := local_details <$> fetch_sockets os opts (fn_ns nd)) (isf := true) (1 := Ho) (2 := Ha) (5 := Ee) as [->|[? ->]]; try done; [by left|cbn; lia].
    Qed.
    Lemma fetch_timer j : k < j → h !! j = Some (FTimer n rid) → outcome (run h) n cb ≠ [].
    Proof.
      intros Hj Hjt. destruct fetch_cases as [Hc|[Hc Hs]].
      { destruct (fetch_alone Hc) as (nd & local & E & Hd & Ho & _). by rewrite Ho. }
      destruct fetch_op as (Hn & Hos & Ho & Ha). destruct fetch_evs as (nd & End & Ee & Hd). rewrite fetch_ev_asked in Ee by done.
      rewrite (split_at h k op Hk).
      apply (asked_timer h1 op h2 n cb rid (HFetch false cb rid (local_details <$> fetch_sockets os opts (fn_ns nd)))) with (local := local_details <$> fetch_sockets os opts (fn_ns nd)) (isf := true) (1 := Ho) (2 := Ha) (5 := Ee); try done; [by left|].
      apply elem_of_list_lookup. exists (j - S k). rewrite lookup_drop. by replace (S k + (j - S k)) with j by lia.
    Qed.
    Lemma fetch_complete : pub = true → (∀ u, knows (run h1) n u → (u ∈ uids ∧ requests_way (run h) n rid u = 0 ∧ responses_way (run h) n rid u = 0) ∨ lost timeout uids h k n u) →
      (∀ j, k < j → h !! j ≠ Some (FTimer n rid)) → ∃ l, outcome (run h) n cb = [CalledOk l].
    Proof.
      intros Hpub Hall Hnt. destruct fetch_cases as [Hc|[Hc Hs]].
      { destruct (fetch_alone Hc) as (nd & local & E & Hd & Ho & _). rewrite Ho. by eexists. }
      destruct fetch_op as (Hn & Hos & Ho & Ha). destruct fetch_evs as (nd & End & Ee & Hd). rewrite fetch_ev_asked in Ee by done.
      rewrite (split_at h k op Hk).
      apply (asked_complete h1 op h2 n cb rid (HFetch false cb rid (local_details <$> fetch_sockets os opts (fn_ns nd)))) with (local := local_details <$> fetch_sockets os opts (fn_ns nd)) (isf := true) (1 := Ho) (2 := Ha) (5 := Ee); try done; [by left| | |].
      - intros u Hu. destruct (Hall u Hu) as [(U & Z1 & Z2)|(j & Hj & Hjl & Hng)].
        + left. rewrite <-(split_at h k op Hk). split_and!; try done. apply held_iff. intros (nd' & End' & Hf).
          destruct (origins timeout uids h Hok) as [_ OA]. destruct (OA u nd' (n, rid) false End' Hf) as (_ & _ & k' & cb' & ev & args0 & echo' & Hk' & _). cbn [fst snd] in Hk'.
          destruct (decide (k' = k)) as [->|Hne]; [by rewrite Hk in Hk'|]. by destruct (Hask k' k _ _ n cb' rid cb rid Hk' Hk Hne eq_refl eq_refl).
        + right. destruct (moment_prefix h k op j Hk Hj) as (g & Hg & Eg). exists g. split; [done|]. by rewrite Eg.
      - rewrite (fetch_called nd) by done. by rewrite Hpub.
      - intros Hin. apply elem_of_list_lookup in Hin as [i Hi]. rewrite lookup_drop in Hi. apply (Hnt (S k + i)); [lia|done].
    Qed.
    (** Nothing changes during the call: the result is exactly the matching sockets of the cluster. *)
    Lemma fetch_snapshot l : outcome (run h) n cb = [CalledOk l] → ¬ local_opts opts →
      (∀ j u, k ≤ j → j ≤ length h → u ∈ uids → u ≠ n → knows (run (take j h)) n u) →
      (∀ j m, k ≤ j → j ≤ length h → (fn_ns <$> fc_nodes (run (take j h)) !! m) = (fn_ns <$> fc_nodes (run h) !! m)) →
      ∃ local parts nd, l = local ++ concat parts.*2 ∧ fc_nodes (run h) !! n = Some nd ∧ describes own_socket (fn_ns nd) opts local ∧
        parts.*1 ≡ₚ elements (uids ∖ {[n]}) ∧ ∀ m v, (m, v) ∈ parts → ∃ nd, fc_nodes (run h) !! m = Some nd ∧ describes (other_socket (fn_ns nd)) (fn_ns nd) opts v.
    Proof.
      intros Hl Hloc Hkn Hns. pose proof (lookup_lt_Some _ _ _ Hk) as Hlt. destruct (fetch_ok l Hl) as (nd & local & parts & End & Hd & -> & Hnd & Hf & _ & Hc). specialize (Hc Hloc).
      assert (Hsame : ∀ j m nd, k ≤ j → j ≤ length h → fc_nodes (run (take j h)) !! m = Some nd → ∃ nd', fc_nodes (run h) !! m = Some nd' ∧ fn_ns nd' = fn_ns nd).
      { intros j m nd0 H1 H2 E. specialize (Hns j m H1 H2). rewrite E in Hns. destruct (fc_nodes (run h) !! m) as [nd'|]; [|done]. exists nd'. by injection Hns as ->. }
      destruct (Hsame k n nd) as (nd' & E' & En); [done|lia|done|]. exists local, parts, nd'. split_and!; [done|done|by rewrite En| |].
      - apply NoDup_Permutation; [done|apply NoDup_elements|]. intros u. rewrite elem_of_elements, elem_of_difference, elem_of_singleton. split.
        + intros Hu. apply elem_of_list_fmap in Hu as ([u' v] & -> & Hp). rewrite Forall_forall in Hf. destruct (Hf _ Hp) as (? & ? & _). done.
        + intros [Hu Hun]. destruct (Hc u) as [?|(j & ? & ? & Hng)]; [apply Hkn; (done || lia)|done|]. exfalso. apply Hng, Hkn; (done || lia).
      - intros m v Hp. rewrite Forall_forall in Hf. destruct (Hf _ Hp) as (_ & _ & j & ndm & Hj & Hjl & Em & Hdm). cbn [fst snd] in *.
        destruct (Hsame j m ndm) as (nd2 & E2 & En2); [lia|lia|done|]. exists nd2. rewrite En2. done.
    Qed.
    Lemma fetch_exactly : length (outcome (run h) n cb) ≤ 1 ∧ ∀ j, k < j → h !! j = Some (FTimer n rid) → length (outcome (run h) n cb) = 1.
    Proof.
      split; [apply fetch_once|]. intros j Hj Ht. pose proof fetch_once as Hle. pose proof (fetch_timer j Hj Ht) as Hne. destruct (outcome (run h) n cb) as [|c [|]]; cbn in *; [done|done|lia].
    Qed.
  End fetch.

  Section emit.
    Context (h : list fop) (k : nat) (n : string) (cb : nat) (rid ev : string) (args : list value) (pub echo : bool).
    Notation op := (FEmit n (Some cb) rid ev args pub echo).
    Hypothesis Hok : ok h.
    Hypothesis Hask : asks_ok h.
    Hypothesis Hk : h !! k = Some op.
    Notation h1 := (take k h).
    Notation h2 := (drop (S k) h).
    Lemma emit_op : n ∈ uids ∧ ok (h1 ++ op :: h2) ∧ asks_ok (h1 ++ op :: h2) ∧ evs (run h1) op n = [HEmit cb rid].
    Proof.
      assert (fop_ok uids op) as Hn. { rewrite Forall_lookup in Hok. by eapply Hok. } rewrite <-(split_at h k op Hk). split_and!; try done. cbn [evs]. by rewrite decide_True.
    Qed.
    Lemma emit_called : (∃ u, knows (run h1) n u) → called (run h1) op n rid = if pub then 1 else 0.
    Proof.
      intros [u (nd & E & Hu)]. unfold ClusterFetchCount.called. cbn [asks]. rewrite (asking_emit timeout _ _ _ _ _ _ _ _ nd E).
      rewrite bool_decide_eq_false_2. 2: { intros Hz. rewrite Hz, lookup_empty in Hu. by destruct Hu. }
      destruct pub; [by rewrite decide_True|]. rewrite decide_False; [done|]. by intros (_ & _ & ?).
    Qed.
    Lemma parts_answered a : a `prefix_of` hfrom (run (h1 ++ [op])) h2 n → ∃ parts, concat (omap (f_part rid) a).*2 = (VArr ∘ snd) <$> parts ∧ (omap (f_part rid) a).*1 = parts.*1 ∧ NoDup parts.*1 ∧
      Forall (answered timeout uids h k n rid ev args) parts.
    Proof.
      intros Ha. destruct emit_op as (Hn & Ho & Hao & Ee).
      assert (NoDup (omap (f_part rid) a).*1) as Hnd by (eapply (parts_once h1 op h2 n cb rid); done).
      assert (Hin : ∀ x, x ∈ a → x ∈ hist h n). { intros x Hx. rewrite (split_at h k op Hk) at 1. eapply in_hist; done. } clear Ha.
      assert (∃ parts, concat (omap (f_part rid) a).*2 = (VArr ∘ snd) <$> parts ∧ (omap (f_part rid) a).*1 = parts.*1 ∧ Forall (answered timeout uids h k n rid ev args) parts) as (parts & E1 & E2 & E3).
      2: { exists parts. split_and!; try done. by rewrite <-E2. }
      clear Hnd. induction a as [|x a IH]; [by exists []; split_and!; [..|constructor]|].
      destruct IH as (parts & E1 & E2 & E3); [intros y Hy; apply Hin; by right|]. cbn. destruct (f_part rid x) as [[u v]|] eqn:Ex; [|by exists parts].
      assert (x ∈ hist h n) as Hx by (apply Hin; by left). destruct x as [|u' r| | | | | |]; try done. cbn in Ex.
      apply responses_origin in Hx as (_ & Hu & Hun & Hg); [|done]. destruct r as [| |i l|i l]; try done; (destruct (decide (i = rid)) as [->|]; [|done]); simplify_eq.
      - exfalso. destruct Hg as (k' & cb' & opts' & echo' & e1' & e2' & os' & Hk' & _). destruct (decide (k' = k)) as [->|Hne]; [by rewrite Hk in Hk'|].
        by destruct (Hask k' k _ _ n cb' rid cb rid Hk' Hk Hne eq_refl eq_refl).
      - exists ((u, l) :: parts). cbn. rewrite E1, E2. split_and!; [done|done|]. constructor; [|done]. destruct Hg as (k' & cb' & ev' & args0 & echo' & Hk' & j & Hj & Hja & Hh & Hfst).
        destruct (decide (k' = k)) as [->|Hne]. 2: { exfalso. by destruct (Hask k' k _ _ n cb' rid cb rid Hk' Hk Hne eq_refl eq_refl). }
        rewrite Hk in Hk'. inversion Hk'; subst. split_and!; [done|done|]. by exists j.
    Qed.
    Lemma emit_cases : (∀ u, ¬ knows (run h1) n u) ∨ ∃ u, knows (run h1) n u.
    Proof.
      destruct emit_op as (Hn & _). destruct (decide (dom (hb_nodes (hrun n timeout (hist h1 n))) = ∅)) as [Hd|Hd].
      - left. intros u Hu. apply knows_dom in Hu; [|done]. rewrite Hd in Hu. by apply not_elem_of_empty in Hu.
      - right. apply set_choose_L in Hd as [u Hu]. exists u. by apply knows_dom.
    Qed.
    Lemma emit_alone : (∀ u, ¬ knows (run h1) n u) → outcome (run h) n cb = [CalledOk []] ∧ fc_net (run (take (S k) h)) = fc_net (run h1).
    Proof.
      intros Hc. destruct emit_op as (Hn & Ho & Ha & Ee). split.
      - rewrite (split_at h k op Hk) at 1. eapply alone; try done. by right.
      - destruct (run_node timeout uids h1 n Hn) as [nd End]. rewrite (take_S_r _ _ _ Hk), frun_snoc, step_net. cbn [kept sends]. rewrite (asking_emit timeout _ _ _ _ _ _ _ _ nd End).
        rewrite bool_decide_eq_true_2; [by rewrite app_nil_r|]. apply map_empty. intros u. destruct (hb_nodes (fn_hb nd) !! u) eqn:Eu; [|done]. destruct (Hc u). exists nd. by rewrite Eu.
    Qed.
    Lemma emit_ok l : outcome (run h) n cb = [CalledOk l] → ∃ parts, l = (VArr ∘ snd) <$> parts ∧ NoDup parts.*1 ∧ Forall (answered timeout uids h k n rid ev args) parts ∧ covers timeout uids h k n parts.*1.
    Proof.
      intros Hl. destruct emit_cases as [Hc|Hs].
      - destruct (emit_alone Hc) as [Ho _]. rewrite Ho in Hl. injection Hl as <-. exists []. split_and!; [done|constructor|constructor|]. intros u Hu. by apply Hc in Hu.
      - destruct emit_op as (Hn & Ho & Ha & Ee).
        rewrite (split_at h k op Hk) in Hl. destruct (asked_ok h1 op h2 n cb rid (HEmit cb rid)) with (l := l) (local := @nil value) (isf := false) (1 := Ho) (2 := Ha) (5 := Ee) as (a & Hpa & -> & Hcov); try done; [by right|].
        destruct (parts_answered a Hpa) as (parts & E1 & E2 & P1 & P2). exists parts. split_and!; try done.
        intros u Hu. rewrite <-E2. destruct (Hcov u Hu) as [?|(g & Hg & Hng)]; [by left|right].
        destruct (prefix_moment h k op g Hk Hg) as (j & ? & ? & Ej). exists j. rewrite <-Ej. done.
    Qed.
    Lemma emit_err l : outcome (run h) n cb = [CalledErr l] → (∃ parts, l = (VArr ∘ snd) <$> parts ∧ NoDup parts.*1 ∧ Forall (answered timeout uids h k n rid ev args) parts) ∧
      ∃ j u, k < j ∧ h !! j = Some (FTimer n rid) ∧ outcome (run (take j h)) n cb = [] ∧ knows (run h1) n u ∧ knows (run (take j h)) n u ∧
      (pub = true → outstanding timeout uids h k n j rid u).
    Proof.
      intros Hl. destruct emit_cases as [Hc|Hs].
      { destruct (emit_alone Hc) as [Ho _]. by rewrite Ho in Hl. }
      destruct emit_op as (Hn & Ho & Ha & Ee).
      rewrite (split_at h k op Hk) in Hl. pose proof (lookup_lt_Some _ _ _ Hk) as Hlt. assert (length h1 = k) as El by (rewrite take_length; lia).
      destruct (asked_err_at h1 op h2 n cb rid (HEmit cb rid)) with (l := l) (local := @nil value) (isf := false) (1 := Ho) (2 := Ha) (5 := Ee) as (j & u & a & X1 & X2 & X3 & X4 & X5 & X6 & X7 & X8); try done; [by right|].
      rewrite <-(split_at h k op Hk), El in *. destruct (parts_answered a X7) as (parts & E1 & E2 & P1 & P2). split.
      - exists parts. split_and!; try done. by rewrite X8.
      - exists j, u. split_and!; try done. intros Hpub. apply X6. rewrite emit_called by done. by rewrite Hpub.
    Qed.
    Lemma emit_once : length (outcome (run h) n cb) ≤ 1.
    Proof.
      destruct emit_cases as [Hc|Hs].
      { destruct (emit_alone Hc) as [Ho _]. by rewrite Ho. }
      destruct emit_op as (Hn & Ho & Ha & Ee). rewrite (split_at h k op Hk).
      destruct (asked_once h1 op h2 n cb rid (HEmit cb rid)) with (local := @nil value) (isf := false) (1 := Ho) (2 := Ha) (5 := Ee) as [->|[? ->]]; try done; [by right|cbn; lia].
    Qed.
    Lemma emit_timer j : k < j → h !! j = Some (FTimer n rid) → outcome (run h) n cb ≠ [].
    Proof.
      intros Hj Hjt. destruct emit_cases as [Hc|Hs].
      { destruct (emit_alone Hc) as [Ho _]. by rewrite Ho. }
      destruct emit_op as (Hn & Ho & Ha & Ee). rewrite (split_at h k op Hk).
      apply (asked_timer h1 op h2 n cb rid (HEmit cb rid)) with (local := @nil value) (isf := false) (1 := Ho) (2 := Ha) (5 := Ee); try done; [by right|].
      apply elem_of_list_lookup. exists (j - S k). rewrite lookup_drop. by replace (S k + (j - S k)) with j by lia.
    Qed.
    Lemma emit_complete : pub = true →
      (∀ u, knows (run h1) n u → (u ∈ uids ∧ requests_way (run h) n rid u = 0 ∧ ¬ callback_held (run h) n rid u ∧ responses_way (run h) n rid u = 0) ∨ lost timeout uids h k n u) →
      (∀ j, k < j → h !! j ≠ Some (FTimer n rid)) → ∃ l, outcome (run h) n cb = [CalledOk l].
    Proof.
      intros Hpub Hall Hnt. destruct emit_cases as [Hc|Hs].
      { destruct (emit_alone Hc) as [Ho _]. rewrite Ho. by eexists. }
      destruct emit_op as (Hn & Ho & Ha & Ee). rewrite (split_at h k op Hk).
      apply (asked_complete h1 op h2 n cb rid (HEmit cb rid)) with (local := @nil value) (isf := false) (1 := Ho) (2 := Ha) (5 := Ee); try done; [by right| | |].
      - intros u Hu. destruct (Hall u Hu) as [(U & Z1 & Z2 & Z3)|(j & Hj & Hjl & Hng)].
        + left. rewrite <-(split_at h k op Hk). split_and!; try done. by apply held_iff.
        + right. destruct (moment_prefix h k op j Hk Hj) as (g & Hg & Eg). exists g. split; [done|]. by rewrite Eg.
      - rewrite emit_called by done. by rewrite Hpub.
      - intros Hin. apply elem_of_list_lookup in Hin as [i Hi]. rewrite lookup_drop in Hi. apply (Hnt (S k + i)); [lia|done].
    Qed.
    Lemma emit_exactly : length (outcome (run h) n cb) ≤ 1 ∧ ∀ j, k < j → h !! j = Some (FTimer n rid) → length (outcome (run h) n cb) = 1.
    Proof.
      split; [apply emit_once|]. intros j Hj Ht. pose proof emit_once as Hle. pose proof (emit_timer j Hj Ht) as Hne. destruct (outcome (run h) n cb) as [|c [|]]; cbn in *; [done|done|lia].
    Qed.
  End emit.

  (** *** Events *)
  Lemma heard_content h m k x : ok h → m ∈ uids → x ∈ heard (run h) m k → ∃ n ack rid echo, h !! k = Some (FEmit n ack rid x.1 x.2 true echo) ∧ n ≠ m.
  Proof.
    intros Ho Hm. induction h as [|op h IH] using rev_ind; intros Hx.
    { unfold heard, frun in Hx. cbn in Hx. case_match eqn:E; [|by apply elem_of_nil in Hx]. apply lookup_gset_to_gmap_Some in E as [_ <-]. by apply elem_of_nil in Hx. }
    apply Forall_app in Ho as [Ho _]. rewrite heard_step in Hx. apply elem_of_app in Hx as [Hx|Hx].
    { destruct (IH Ho Hx) as (n & ack & rid & echo & E & ?). exists n, ack, rid, echo. split; [by apply lookup_app_l_Some|done]. }
    destruct (run_node timeout uids h m Hm) as [nd End]. rewrite End in Hx. destruct op as [| |i t o os| | | | |]; cbn [hears] in Hx; try (by apply elem_of_nil in Hx).
    destruct (fc_net (run h) !! i) as [[d [u rid po|u rid pk tg|u r]]|] eqn:E; try (by apply elem_of_nil in Hx). destruct (decide (d = m ∧ u ≠ m)) as [[-> Hu]|]; [|by apply elem_of_nil in Hx].
    assert (req_ok uids h (m, QEmit u rid pk tg)) as (_ & _ & ack & rid0 & ev & args & echo & Hk & -> & _) by (apply (requests_ok timeout); [done|by eapply elem_of_list_lookup_2]).
    cbn in Hx. unfold f_heard in Hx. cbn in Hx. destruct (decide (tg = k)) as [->|]; [|by apply elem_of_nil in Hx]. apply elem_of_list_singleton in Hx as ->.
    exists u, ack, rid0, echo. split; [by apply lookup_app_l_Some|done].
  Qed.
  Lemma event_way h k n ack rid ev args pub echo m : ok h → h !! k = Some (FEmit n ack rid ev args pub echo) → m ∈ uids → m ≠ n → pub = true → (ack = None ∨ ∃ u, knows (run (take k h)) n u) →
    (events_way (run h) m k = 1 ∧ heard (run h) m k = []) ∨ (events_way (run h) m k = 0 ∧ heard (run h) m k = [(ev, args)]).
  Proof.
    intros Ho Hk Hm Hmn -> Hc. pose proof (events_total timeout uids h m k Ho Hm) as Ht. rewrite Hk in Ht. cbn [emits] in Ht.
    assert (Hn : n ∈ uids). { rewrite Forall_lookup in Ho. apply Ho in Hk. done. } destruct (run_node timeout uids (take k h) n Hn) as [nd End].
    rewrite decide_True in Ht.
    - destruct (heard (run h) m k) as [|[ev' args'] [|]] eqn:Eh; cbn in Ht; [left; split; [lia|done]| |lia]. right. split; [lia|].
      assert ((ev', args') ∈ heard (run h) m k) as Hin by (rewrite Eh; by left). apply heard_content in Hin as (n' & ack' & rid' & echo' & Hk' & _); [|done|done]. rewrite Hk in Hk'. cbn in Hk'. by inversion Hk'; subst.
    - split; [done|]. destruct ack as [cb|]; [|cbn; by rewrite End]. rewrite (asking_emit timeout _ _ _ _ _ _ _ _ nd End). destruct Hc as [|(u & nd' & E' & Hu)]; [done|]. rewrite End in E'. injection E' as <-.
      rewrite bool_decide_eq_false_2; [done|]. intros Hz. rewrite Hz, lookup_empty in Hu. by destruct Hu.
  Qed.
  Lemma event_only h k m x : ok h → m ∈ uids → x ∈ heard (run h) m k → heard (run h) m k = [x] ∧ ∃ n ack rid echo, h !! k = Some (FEmit n ack rid x.1 x.2 true echo) ∧ n ≠ m ∧ (ack = None ∨ ∃ u, knows (run (take k h)) n u).
  Proof.
    intros Ho Hm Hx. pose proof (events_total timeout uids h m k Ho Hm) as Ht. destruct (heard_content h m k x Ho Hm Hx) as (n & ack & rid & echo & Hk & Hn). rewrite Hk in Ht. cbn [emits] in Ht. split.
    - pose proof (events_le timeout uids h m k Ho Hm) as Hle. destruct (heard (run h) m k) as [|y [|]]; [by apply elem_of_nil in Hx| |cbn in Hle; lia]. by apply elem_of_list_singleton in Hx as ->.
    - exists n, ack, rid, echo. split_and!; [done|done|]. destruct ack as [cb|]; [|by left]. right.
      assert (Hnu : n ∈ uids). { rewrite Forall_lookup in Ho. apply Ho in Hk. done. } destruct (run_node timeout uids (take k h) n Hnu) as [nd End].
      rewrite (asking_emit timeout _ _ _ _ _ _ _ _ nd End) in Ht. destruct (decide (hb_nodes (fn_hb nd) = ∅)) as [Hz|Hz].
      + rewrite (bool_decide_eq_true_2 _ Hz) in Ht. cbn [negb andb] in Ht. rewrite decide_False in Ht by (by intros [_ ?]). destruct (heard (run h) m k); [by apply elem_of_nil in Hx|cbn in Ht; lia].
      + apply map_choose in Hz as (u & t & Hu). exists u, nd. split; [done|]. by exists t.
  Qed.
End results.
