(** Proofs about [ClusterAck.v]: where reports and answers come from, when a collection is complete. *)
From Verif Require Import Base GoTypes Rooms Adapter AdapterSpec AdapterProofs Cluster ClusterSpec ClusterProofs BcastAck BcastAckSpec BcastAckProofs BcastAckConc ClusterAck ClusterAckSpec ClusterAckProofs ClusterAckCount.

Section reply.
  Context (uids : gset string).
  Notation run := (arun uids).
  Definition answered (h : list aop) (m : string) (k : nat) (id : sid) (a : list value) : Prop :=
    ∃ h1 pid h2, h = h1 ++ AClient m id pid a :: h2 ∧ (id, pid) ∈ sent (run h1) m k.
  Lemma answered_app h op m k id a : answered h m k id a → answered (h ++ [op]) m k id a.
  Proof. intros (h1 & pid & h2 & -> & Hs). exists h1, pid, (h2 ++ [op]). by rewrite <-app_assoc. Qed.
  Definition is_call (h : list aop) (k : nat) : Prop := ∃ n rid opts pub echo e1 e2 os, h !! k = Some (ACall n rid opts pub echo e1 e2 os).
  Lemma is_call_app h op k : is_call h k → is_call (h ++ [op]) k.
  Proof. intros (n & rid & o & p & c & a & b & r & H). exists n, rid, o, p, c, a, b, r. by apply lookup_app_l_Some. Qed.
  Lemma call_at_is h k n rid : call_at h k n rid → is_call h k.
  Proof. intros (o & p & c & a & b & r & H & _). by exists n, rid, o, p, c, a, b, r. Qed.

  Definition entry_ok (h : list aop) (x : entry) : Prop :=
    match en_ev x with
    | EbTimer => ATimer (en_call x) ∈ h
    | EbReply a => en_from x ∈ uids ∧ is_call h (en_call x) ∧ ∃ id, en_who x = Some id ∧ answered h (en_from x) (en_call x) id a
    | _ => en_from x ∈ uids ∧ is_call h (en_call x)
    end.
  Lemma entry_ok_app h op x : entry_ok h x → entry_ok (h ++ [op]) x.
  Proof.
    unfold entry_ok. destruct (en_ev x).
    - intros [? ?]. split; [done|by apply is_call_app].
    - intros (? & ? & id & ? & ?). split_and!; [done|by apply is_call_app|]. exists id. split; [done|by apply answered_app].
    - intros [? ?]. split; [done|by apply is_call_app].
    - intros H. apply elem_of_app. by left.
  Qed.
  Definition n_calls (h : list aop) (k : nat) : nat := match h !! k with Some (ACall _ _ _ _ _ _ _ _) => 1 | _ => 0 end.
  Record hist (h : list aop) (s : acluster) : Prop := Hist {
    l_log : ∀ x, x ∈ ac_log s → entry_ok h x;
    l_net : ∀ d u rid a t w, (d, AAns u rid a t w) ∈ ac_net s → answered h u t w a;
    l_fin : ∀ k, n_finish (events s k) = n_calls h k
  }.
  Lemma n_calls_quiet h op k : (∀ n rid opts pub echo e1 e2 os, op ≠ ACall n rid opts pub echo e1 e2 os) → n_calls (h ++ [op]) k = n_calls h k.
  Proof.
    intros Hop. unfold n_calls. destruct (decide (k < length h)); [by rewrite lookup_app_l|]. rewrite (lookup_ge_None_2 h) by lia.
    destruct (decide (k = length h)) as [->|]; [|by rewrite (lookup_ge_None_2 (h ++ [op])) by (rewrite app_length; simpl; lia)].
    rewrite lookup_app_r, Nat.sub_diag by done. destruct op; try done. exfalso. by eapply Hop.
  Qed.
  Lemma n_finish_app es es' : n_finish (es ++ es') = n_finish es + n_finish es'.
  Proof. unfold n_finish. by rewrite omap_app, app_length. Qed.
  Lemma hist_quiet h op s s' : hist h s → (∀ n rid opts pub echo e1 e2 os, op ≠ ACall n rid opts pub echo e1 e2 os) →
    (ac_log s' = ac_log s ∨ ∃ x, ac_log s' = ac_log s ++ [x] ∧ entry_ok (h ++ [op]) x ∧ en_ev x ≠ EbFinish) →
    (∀ d u rid a t w, (d, AAns u rid a t w) ∈ ac_net s' → (d, AAns u rid a t w) ∈ ac_net s ∨ answered (h ++ [op]) u t w a) →
    hist (h ++ [op]) s'.
  Proof.
    intros [H1 H2 H3] Hop Hlog Hnet. split.
    - intros x Hx. destruct Hlog as [E|(y & E & Hy & _)]; rewrite E in Hx; [by apply entry_ok_app, H1|].
      apply elem_of_app in Hx as [Hx| ->%elem_of_list_singleton]; [by apply entry_ok_app, H1|done].
    - intros d u rid a t w [H|H]%Hnet; [|done]. by eapply answered_app, H2.
    - intros k. rewrite n_calls_quiet, <-H3 by done. destruct Hlog as [E|(y & E & _ & Hy)]; unfold events; rewrite E; [done|].
      rewrite omap_snoc, n_finish_app. case_decide; cbn; [|lia]. destruct (en_ev y); cbn; [lia..|done|lia].
  Qed.
  Lemma init_hist : hist [] (ainit uids).
  Proof. split; cbn; [|..|done]; intros *; intros H; by apply elem_of_nil in H. Qed.
  Lemma step_hist h op : inv uids h (run h) → hist h (run h) → aop_ok uids op → rids_ok (h ++ [op]) → hist (h ++ [op]) (astep (run h) op).
  Proof.
    intros Hi Hh Hop Hr. pose proof (astep_trans uids h (run h) op Hi Hop) as Ht. set (s := run h) in *. generalize dependent (astep s op). intros s' Ht.
    assert (Hr' : rids_ok h) by (by eapply rids_ok_app).
    assert (Htag : ∀ i d m nd rid e t, ac_net s !! i = Some (d, m) → ac_nodes s !! d = Some nd → an_reqs nd !! rid = Some e → call_at h t d rid → e = t).
    { intros i d m nd rid e t _ Hnd Hreq Hcall. eapply call_at_unique; [done| |done]. by eapply v_reqs; [eapply v_node|]. }
    assert (Hdom : ∀ n nd, ac_nodes s !! n = Some nd → n ∈ uids). { intros n nd H. rewrite <-(v_dom _ _ _ Hi). apply elem_of_dom. by exists nd. }
    destruct Ht as [n rid opts pub echo e1 e2 os nd l Hnd Hnl Hl|i os Hx|i os d rid po t Hx|i os d u rid po t nd l Hx Hud Hnd Hnl Hl|i os d u rid c t nd e Hx Hnd Hreq|i os d u rid c t nd Hx Hnd Hreq
      |i os d u rid a t w nd e Hx Hnd Hreq|i os d u rid a t w nd Hx Hnd Hreq|n id pid a Hno|n id pid a nd e Hnd Hack|n id pid a nd u rid t Hnd Hack|n rid|e|n l].
    - (* TCall *)
      rewrite (v_step _ _ _ Hi). destruct Hh as [H1 H2 H3]. 
      assert (Hc : is_call (h ++ [ACall n rid opts pub echo e1 e2 os]) (length h)). { exists n, rid, opts, pub, echo, e1, e2, os. by rewrite lookup_app_r, Nat.sub_diag. }
      split; cbn [next ac_log ac_net].
      + intros x [[Hx| ->%elem_of_list_singleton]%elem_of_app| ->%elem_of_list_singleton]%elem_of_app; [by apply entry_ok_app, H1|..]; (split; [by eapply Hdom|done]).
      + intros d u r a t w [Hx|Hx]%elem_of_app; [by eapply answered_app, H2|]. unfold requests in Hx. destruct (negb (is_local opts) && pub); [|by apply elem_of_nil in Hx].
        by apply elem_of_list_fmap in Hx as (? & ? & _).
      + intros k. unfold events. cbn [next ac_log]. rewrite !omap_snoc, !n_finish_app. cbn [en_call en_ev]. pose proof (H3 k) as H4. unfold events in H4. rewrite H4. clear H4.
        unfold n_calls. destruct (decide (length h = k)) as [<-|]; cbn.
        * rewrite (lookup_ge_None_2 h) by lia. by rewrite lookup_app_r, Nat.sub_diag.
        * destruct (decide (k < length h)); [rewrite lookup_app_l by done; lia|]. rewrite (lookup_ge_None_2 h), (lookup_ge_None_2 (h ++ _)) by (rewrite ?app_length; simpl; lia). lia.
    - eapply hist_quiet; [exact Hh|done|by left|]. intros * H. by left.
    - eapply hist_quiet; [exact Hh|done|by left|]. intros * H%elem_delete. by left.
    - eapply hist_quiet; [exact Hh|done|by left|]. intros * [H%elem_delete|H%elem_of_list_singleton]%elem_of_app; [by left|done].
    - (* TCnt *)
      destruct (v_net _ _ _ Hi _ (elem_of_list_lookup_2 _ _ _ Hx)) as [_ (Hu & _ & Hcall)]. cbn in Hu, Hcall. pose proof (Htag _ _ _ _ _ _ _ Hx Hnd Hreq Hcall) as ->.
      eapply hist_quiet; [exact Hh|done| |].
      + right. eexists. split; [reflexivity|]. split; [|done]. split; [done|by eapply is_call_app, call_at_is].
      + intros * H%elem_delete. by left.
    - eapply hist_quiet; [exact Hh|done|by left|]. intros * H%elem_delete. by left.
    - (* TAns *)
      destruct (v_net _ _ _ Hi _ (elem_of_list_lookup_2 _ _ _ Hx)) as [_ (Hu & _ & Hcall)]. cbn in Hu, Hcall. pose proof (Htag _ _ _ _ _ _ _ Hx Hnd Hreq Hcall) as ->.
      eapply hist_quiet; [exact Hh|done| |].
      + right. eexists. split; [reflexivity|]. split; [|done]. split; [done|]. split; [by eapply is_call_app, call_at_is|]. exists w. split; [done|].
        cbn. eapply answered_app, (l_net _ _ Hh), elem_of_list_lookup_2, Hx.
      + intros * H%elem_delete. by left.
    - eapply hist_quiet; [exact Hh|done|by left|]. intros * H%elem_delete. by left.
    - eapply hist_quiet; [exact Hh|done|by left|]. intros * H. by left.
    - (* THere *)
      destruct (v_acks _ _ _ _ (v_node _ _ _ Hi _ _ Hnd) _ _ _ Hack) as [Hw (r & o & p & q & a1 & b1 & z & Hcall)]. cbn in Hw, Hcall.
      eapply hist_quiet; [exact Hh|done| |].
      + right. eexists. split; [reflexivity|]. split; [|done]. split; [by eapply Hdom|]. split; [apply is_call_app; cbn; by exists n, r, o, p, q, a1, b1, z|]. exists id. split; [done|].
        exists h, pid, []. split; [done|]. cbn. fold s. rewrite (sent_node s n nd) by done. by apply elem_sentn.
      + intros * H. by left.
    - (* TThere *)
      destruct (v_acks _ _ _ _ (v_node _ _ _ Hi _ _ Hnd) _ _ _ Hack) as [Hw _]. cbn in Hw.
      eapply hist_quiet; [exact Hh|done|by left|]. intros d' u' r' a' t' w' [H|H%elem_of_list_singleton]%elem_of_app; [by left|]. right.
      assert (u' = n ∧ a' = a ∧ t' = t ∧ w' = id) as (-> & -> & -> & ->) by (by simplify_eq).
      exists h, pid, []. split; [done|]. fold s. rewrite (sent_node s n nd) by done. by apply elem_sentn.
    - eapply hist_quiet; [exact Hh|done|by left|]. intros * H. by left.
    - eapply hist_quiet; [exact Hh|done| |].
      + right. eexists. split; [reflexivity|]. split; [|done]. cbn. apply elem_of_app. right. by apply elem_of_list_singleton.
      + intros * H. by left.
    - eapply hist_quiet; [exact Hh|done|by left|]. intros * H. by left.
  Qed.
  Lemma run_hist h : Forall (aop_ok uids) h → rids_ok h → hist h (run h).
  Proof.
    induction h as [|op h IH] using rev_ind; intros Hok Hr; [apply init_hist|].
    apply Forall_app in Hok as [Hok [Hop _]%Forall_cons]. pose proof (rids_ok_app _ _ Hr). rewrite arun_snoc. apply step_hist; [by apply run_inv|by apply IH|done|done].
  Qed.
End reply.

(** *** A log split by servers and sockets *)
Lemma bind_app_perm {A B} (f g : A → list B) (l : list A) : (l ≫= λ m, f m ++ g m) ≡ₚ (l ≫= f) ++ (l ≫= g).
Proof.
  induction l as [|x l IH]; [done|]. rewrite !bind_cons, IH. rewrite <-!app_assoc. f_equiv. rewrite !app_assoc. f_equiv. apply Permutation_app_comm.
Qed.
Lemma bind_nil {A B} (l : list A) : (l ≫= λ _, @nil B) = [].
Proof. by induction l. Qed.
Lemma bind_single {A B} `{EqDecision A} (l : list A) (a : A) (y : B) : NoDup l → a ∈ l → (l ≫= λ m, if decide (a = m) then [y] else []) = [y].
Proof.
  induction l as [|x l IH]; intros Hnd Ha; [by apply elem_of_nil in Ha|]. apply NoDup_cons in Hnd as [Hx Hnd]. rewrite bind_cons.
  destruct (decide (a = x)) as [->|Hne].
  - assert ((l ≫= λ m, if decide (x = m) then [y] else []) = []) as ->; [|done].
    clear -Hx. induction l as [|z l IH]; [done|]. apply not_elem_of_cons in Hx as [? ?]. rewrite bind_cons, decide_False by done. by apply IH.
  - apply elem_of_cons in Ha as [->|Ha]; [done|]. by rewrite IH.
Qed.
Lemma perm_split {A B K} `{EqDecision K} (F : A → option B) (key : A → K) (us : list K) (lg : list A) : NoDup us →
  (∀ x, x ∈ lg → is_Some (F x) → key x ∈ us) →
  omap F lg ≡ₚ us ≫= λ m, omap (λ x, if decide (key x = m) then F x else None) lg.
Proof.
  intros Hnd. induction lg as [|x lg IH] using rev_ind; intros Hk; [cbn; by rewrite bind_nil|].
  rewrite omap_snoc. transitivity (us ≫= λ m, omap (λ x, if decide (key x = m) then F x else None) lg ++ (if decide (key x = m) then match F x with Some y => [y] | None => [] end else [])).
  - rewrite bind_app_perm, <-IH by (intros; apply Hk; [apply elem_of_app; by left|done]). f_equiv. destruct (F x) as [y|] eqn:E.
    + rewrite bind_single; [done|done|]. apply Hk; [apply elem_of_app; right; by apply elem_of_list_singleton|by eexists].
    + assert ((us ≫= λ m, if decide (key x = m) then @nil B else []) = []) as ->; [|done]. clear. induction us as [|z us IH]; [done|]. rewrite bind_cons, IH. by case_decide.
  - erewrite list_bind_ext; [reflexivity| |done]. intros m. cbn beta. rewrite omap_snoc. by case_decide.
Qed.
Lemma bind_perm {A B} (f g : A → list B) (l : list A) : (∀ x, x ∈ l → f x ≡ₚ g x) → l ≫= f ≡ₚ l ≫= g.
Proof. induction l as [|x l IH]; intros H; [done|]. rewrite !bind_cons. f_equiv; [apply H; by left|]. apply IH. intros. apply H. by right. Qed.
Lemma bind_fmap {A B C} (f : A → B) (g : B → list C) (l : list A) : (f <$> l) ≫= g = l ≫= λ x, g (f x).
Proof. induction l as [|x l IH]; [done|]. rewrite fmap_cons, !bind_cons. by rewrite IH. Qed.
Lemma bind_length {A B} (f : A → list B) l : length (l ≫= f) = sum_list_with (λ x, length (f x)) l.
Proof. induction l as [|x l IH]; [done|]. rewrite bind_cons, app_length, IH. done. Qed.
Lemma bind_sum {A} (f : A → list nat) l : sum_list (l ≫= f) = sum_list_with (λ x, sum_list (f x)) l.
Proof. induction l as [|x l IH]; [done|]. rewrite bind_cons, sum_list_app, IH. done. Qed.
Lemma sum_list_perm (l l' : list nat) : l ≡ₚ l' → sum_list l = sum_list l'.
Proof. induction 1; cbn; lia. Qed.
Lemma sum_with_le {A} (f g : A → nat) l : (∀ x, x ∈ l → f x ≤ g x) → sum_list_with f l ≤ sum_list_with g l.
Proof. induction l as [|x l IH]; intros H; cbn; [lia|]. pose proof (H x ltac:(by left)). specialize (IH ltac:(intros; apply H; by right)). lia. Qed.
Lemma sum_with_eq {A} (f g : A → nat) l : (∀ x, x ∈ l → f x ≤ g x) → sum_list_with f l = sum_list_with g l → ∀ x, x ∈ l → f x = g x.
Proof.
  induction l as [|x l IH]; intros H E y Hy; [by apply elem_of_nil in Hy|]. cbn in E. pose proof (H x ltac:(by left)) as Hx.
  pose proof (sum_with_le f g l ltac:(intros; apply H; by right)). apply elem_of_cons in Hy as [->|Hy]; [lia|]. apply IH; [intros; apply H; by right|lia|done].
Qed.
Lemma sum_with_one {A} (l : list A) : sum_list_with (λ _, 1) l = length l.
Proof. induction l; cbn; lia. Qed.

Section totals.
  Context (uids : gset string).
  Notation run := (arun uids).
  Lemma counts_events s k : counts_of (events s k) = omap (λ x, if decide (en_call x = k) then match en_ev x with EbCount c => Some c | _ => None end else None) (ac_log s).
  Proof. unfold events. induction (ac_log s) as [|x lg IH] using rev_ind; [done|]. rewrite !omap_snoc, counts_app, IH. f_equal. case_decide; [|done]. by destruct (en_ev x). Qed.
  Lemma replies_events s k : replies_of (events s k) = omap (λ x, if decide (en_call x = k) then match en_ev x with EbReply c => Some c | _ => None end else None) (ac_log s).
  Proof. unfold events. induction (ac_log s) as [|x lg IH] using rev_ind; [done|]. rewrite !omap_snoc, replies_app, IH. f_equal. case_decide; [|done]. by destruct (en_ev x). Qed.
  Lemma omap_ext' {A B} (f g : A → option B) (l : list A) : (∀ x, f x = g x) → omap f l = omap g l.
  Proof. intros H. induction l as [|x l IH]; [done|]. unfold omap in *. cbn [list_omap]. by rewrite H, IH. Qed.

  Lemma of_nodup l id : NoDup l.*1 → of l id = if decide (id ∈ l.*1) then 1 else 0.
  Proof.
    induction l as [|[x p] l IH]; intros Hnd; [done|]. rewrite fmap_cons in *. cbn [fst] in *. apply NoDup_cons in Hnd as [Hx Hnd]. rewrite filter_cons. cbn [fst].
    destruct (decide (x = id)) as [->|Hne].
    - cbn [length]. rewrite IH by done. rewrite decide_False by done. rewrite decide_True by (by left). done.
    - rewrite IH by done. destruct (decide (id ∈ l.*1)); [rewrite decide_True by (by right); done|]. rewrite decide_False; [done|]. intros [->|?]%elem_of_cons; done.
  Qed.

  Lemma split_counts h k : Forall (aop_ok uids) h → rids_ok h → counts_of (events (run h) k) ≡ₚ elements uids ≫= counts_from (run h) k.
  Proof.
    intros Hok Hr. pose proof (run_hist uids h Hok Hr) as Hh. rewrite counts_events, (perm_split _ en_from (elements uids)); [|apply NoDup_elements|].
    - erewrite list_bind_ext; [reflexivity| |done]. intros m. cbn beta. apply omap_ext'. intros x. repeat case_decide; naive_solver.
    - intros x Hx Hs. apply elem_of_elements. pose proof (l_log _ _ _ Hh x Hx) as He. unfold entry_ok in He. case_decide; [|by destruct Hs]. destruct (en_ev x); try (by destruct Hs). apply He.
  Qed.
  Lemma split_replies h k : Forall (aop_ok uids) h → rids_ok h →
    replies_of (events (run h) k) ≡ₚ elements uids ≫= λ m, (sent (run h) m k).*1 ≫= answers_from (run h) k m.
  Proof.
    intros Hok Hr. pose proof (run_hist uids h Hok Hr) as Hh. pose proof (run_cons uids h Hok Hr) as Hc. rewrite replies_events, (perm_split _ en_from (elements uids)); [|apply NoDup_elements|].
    - apply bind_perm. intros m _. rewrite (perm_split _ en_who (Some <$> (sent (run h) m k).*1)).
      + rewrite bind_fmap. erewrite list_bind_ext; [reflexivity| |done]. intros id. cbn. apply omap_ext'. intros x. repeat case_decide; naive_solver.
      + apply NoDup_fmap_2; [by intros ? ? [= ->]|apply (c_nodup _ _ _ Hc)].
      + intros x Hx Hs. pose proof (l_log _ _ _ Hh x Hx) as He. unfold entry_ok in He. case_decide as Hm; [|by destruct Hs]. case_decide as Hk; [|by destruct Hs].
        destruct (en_ev x) as [|a| |] eqn:Ev; try (by destruct Hs). destruct He as (_ & _ & id & Hw & _). rewrite Hw. apply elem_of_list_fmap. exists id. split; [done|].
        pose proof (c_ans _ _ _ Hc m k id) as Ha. rewrite (of_nodup (sent (run h) m k) id (c_nodup _ _ _ Hc m k)) in Ha. case_decide; [done|].
        assert (1 ≤ length (Af (ac_log (run h)) k m id)); [|lia]. eapply one_elem; [exact Hx|]. unfold one, g_ans. rewrite decide_True by done. by rewrite Ev.
    - intros x Hx Hs. apply elem_of_elements. pose proof (l_log _ _ _ Hh x Hx) as He. unfold entry_ok in He. case_decide; [|by destruct Hs]. destruct (en_ev x); try (by destruct Hs). apply He.
  Qed.

  (** Per server and socket. *)
  Lemma counts_one h k m : Forall (aop_ok uids) h → rids_ok h → m ∈ uids → counts_from (run h) k m = [] ∨ counts_from (run h) k m = [length (sent (run h) m k)].
  Proof.
    intros Hok Hr Hm. pose proof (run_cons uids h Hok Hr) as Hc. pose proof (c_cnt _ _ _ Hc m k Hm) as H. pose proof (due_le h k m).
    pose proof (c_val _ _ _ Hc m k) as Hv. change (omap (g_cnt k m) (ac_log (run h))) with (counts_from (run h) k m) in *.
    destruct (counts_from (run h) k m) as [|c [|? ?]]; [by left| |cbn in H; lia]. right. f_equal. apply Hv. by left.
  Qed.
  Lemma answers_le h k m id : Forall (aop_ok uids) h → rids_ok h →
    of (waiting (run h) m k) id + answers_way (run h) k m id + length (answers_from (run h) k m id) ≤ if decide (id ∈ (sent (run h) m k).*1) then 1 else 0.
  Proof.
    intros Hok Hr. pose proof (run_cons uids h Hok Hr) as Hc. pose proof (c_ans _ _ _ Hc m k id) as Ha. rewrite (of_nodup (sent (run h) m k) id (c_nodup _ _ _ Hc m k)) in Ha.
    change (answers_way (run h) k m id) with (Aw (ac_net (run h)) k m id). change (answers_from (run h) k m id) with (Af (ac_log (run h)) k m id). lia.
  Qed.
  Lemma totals h k : Forall (aop_ok uids) h → rids_ok h → let s := run h in
    length (counts_of (events s k)) = sum_list_with (λ m, length (counts_from s k m)) (elements uids) ∧
    sum_list (counts_of (events s k)) = sum_list_with (λ m, sum_list (counts_from s k m)) (elements uids) ∧
    length (replies_of (events s k)) = sum_list_with (λ m, sum_list_with (λ id, length (answers_from s k m id)) (sent s m k).*1) (elements uids).
  Proof.
    intros Hok Hr s. pose proof (split_counts h k Hok Hr) as H1. pose proof (split_replies h k Hok Hr) as H2. fold s in H1, H2. split_and!.
    - rewrite H1. apply bind_length.
    - rewrite (sum_list_perm _ _ H1). apply bind_sum.
    - rewrite H2, bind_length. assert (∀ l, sum_list_with (λ m, length ((sent s m k).*1 ≫= answers_from s k m)) l = sum_list_with (λ m, sum_list_with (λ id, length (answers_from s k m id)) (sent s m k).*1) l) as E; [|apply E].
      induction l as [|m l IH]; [done|]. cbn. by rewrite bind_length, IH.
  Qed.
  Lemma answers_total h k m : Forall (aop_ok uids) h → rids_ok h →
    sum_list_with (λ id, length (answers_from (run h) k m id)) (sent (run h) m k).*1 ≤ length (sent (run h) m k).
  Proof.
    intros Hok Hr. rewrite <-(fmap_length fst (sent (run h) m k)), <-sum_with_one. apply sum_with_le. intros id Hid. pose proof (answers_le h k m id Hok Hr) as H. rewrite decide_True in H by done. lia.
  Qed.
  Lemma all_counted h k : Forall (aop_ok uids) h → rids_ok h →
    length (counts_of (events (run h) k)) ≤ size uids ∧
    (length (counts_of (events (run h) k)) = size uids → ∀ m, m ∈ uids → counts_from (run h) k m = [length (sent (run h) m k)]).
  Proof.
    intros Hok Hr. destruct (totals h k Hok Hr) as (-> & _ & _). change (size uids) with (length (elements uids)). rewrite <-sum_with_one.
    assert (∀ m, m ∈ elements uids → length (counts_from (run h) k m) ≤ 1) as Hle. { intros m Hm%elem_of_elements. destruct (counts_one h k m Hok Hr Hm) as [-> | ->]; cbn; lia. }
    split; [by apply sum_with_le|]. intros E m Hm. pose proof (sum_with_eq _ _ _ Hle E m ltac:(by apply elem_of_elements)) as H1. cbn in H1.
    destruct (counts_one h k m Hok Hr Hm) as [E1| ->]; [by rewrite E1 in H1|done].
  Qed.
  Lemma all_answered h k : Forall (aop_ok uids) h → rids_ok h → (∀ m, m ∈ uids → counts_from (run h) k m = [length (sent (run h) m k)]) →
    length (replies_of (events (run h) k)) ≤ sum_list (counts_of (events (run h) k)) ∧
    (length (replies_of (events (run h) k)) = sum_list (counts_of (events (run h) k)) ↔
      ∀ m id, m ∈ uids → id ∈ (sent (run h) m k).*1 → ∃ a, answers_from (run h) k m id = [a]).
  Proof.
    intros Hok Hr Hcnt. destruct (totals h k Hok Hr) as (_ & -> & ->).
    assert (∀ m, m ∈ elements uids → sum_list (counts_from (run h) k m) = length (sent (run h) m k)) as Hs. { intros m Hm%elem_of_elements. rewrite Hcnt by done. cbn. lia. }
    assert (∀ m, m ∈ elements uids → sum_list_with (λ id, length (answers_from (run h) k m id)) (sent (run h) m k).*1 ≤ sum_list (counts_from (run h) k m)) as Hle.
    { intros m Hm. rewrite Hs by done. by apply answers_total. }
    split; [by apply sum_with_le|]. split.
    - intros E m id Hm Hid. pose proof (sum_with_eq _ _ _ Hle E m ltac:(by apply elem_of_elements)) as H1. cbn in H1. rewrite Hs in H1 by (by apply elem_of_elements).
      rewrite <-(fmap_length fst (sent (run h) m k)), <-sum_with_one in H1. apply sum_with_eq with (x := id) in H1; [|clear -Hok Hr; intros i Hi; pose proof (answers_le h k m i Hok Hr) as H; rewrite decide_True in H by done; lia|done].
      destruct (answers_from (run h) k m id) as [|a [|]]; [done|by exists a|done].
    - intros H. assert (∀ l, (∀ m, m ∈ l → m ∈ elements uids) → sum_list_with (λ m, sum_list_with (λ id, length (answers_from (run h) k m id)) (sent (run h) m k).*1) l = sum_list_with (λ m, sum_list (counts_from (run h) k m)) l) as E; [|by apply E].
      induction l as [|m l IH]; intros Hl; [done|]. cbn. rewrite IH by (intros; apply Hl; by right). f_equal. assert (m ∈ elements uids) as Hm by (apply Hl; by left). rewrite Hs by done.
      apply elem_of_elements in Hm. rewrite <-(fmap_length fst (sent (run h) m k)), <-sum_with_one. specialize (H m). revert H. generalize ((sent (run h) m k).*1). clear -Hm. intros ids H.
      induction ids as [|id ids IH]; [done|]. cbn. destruct (H id Hm ltac:(by left)) as [a ->]. rewrite IH; [done|]. intros i Hi Hin. apply H; [done|by right].
  Qed.

  Lemma ack_result h k ls b l : Forall (aop_ok uids) h → rids_ok h → let s := run h in
    bexec (size uids) false ls bst0 = Some b → lcounts ls = counts_of (events s k) → lreplies ls = replies_of (events s k) →
    (∀ a, a ∈ lreplies ls → length a = 1) → BOk l ∈ b_calls b →
    (∀ m, m ∈ uids → counts_from s k m = [length (sent s m k)] ∧ ∀ id, id ∈ (sent s m k).*1 → ∃ a, answers_from s k m id = [a]) ∧
    l ≡ₚ concat (elements uids ≫= λ m, (sent s m k).*1 ≫= answers_from s k m).
  Proof.
    intros Hok Hr s Hb E1 E2 H1 Hl. destruct (all_counted h k Hok Hr) as [Hle Hall]. fold s in Hle, Hall.
    destruct (bcast_conc (size uids) ls b Hb) with (l := l) as (C1 & C2 & C3); [by rewrite E1|done| |done|].
    { rewrite E1, E2. intros E. apply (all_answered h k Hok Hr). by apply Hall. }
    rewrite E1 in C1. rewrite E1, E2 in C2. rewrite E2 in C3. specialize (Hall C1). split.
    - intros m Hm. split; [by apply Hall|]. intros id Hid. by eapply (all_answered h k Hok Hr).
    - rewrite C3. pose proof (split_replies h k Hok Hr) as Hp. fold s in Hp. by rewrite Hp.
  Qed.

  (** Everything arrived. *)
  Lemma first_complete sc todo : ∀ past, todo ≠ [] → complete sc (past ++ todo) → EbTimer ∉ todo →
    ∃ pre post, past ++ todo = pre ++ post ∧ complete sc pre ∧ first_outcome sc past todo = Some (OutOk (concat (replies_of pre))).
  Proof.
    induction todo as [|e todo IH]; intros past Hne Hc Ht; [done|]. cbn [first_outcome]. apply not_elem_of_cons in Ht as [He Ht].
    assert (complete sc (past ++ [e]) → ∃ pre post, past ++ e :: todo = pre ++ post ∧ complete sc pre ∧ Some (OutOk (concat (replies_of (past ++ [e])))) = Some (OutOk (concat (replies_of pre)))) as Hnow.
    { intros H. exists (past ++ [e]), todo. split_and!; [by rewrite <-app_assoc|done|done]. }
    assert (¬ complete sc (past ++ [e]) → ∃ pre post, past ++ e :: todo = pre ++ post ∧ complete sc pre ∧ first_outcome sc (past ++ [e]) todo = Some (OutOk (concat (replies_of pre)))) as Hlater.
    { intros H. destruct todo as [|e' todo]; [by destruct H|]. destruct (IH (past ++ [e])) as (pre & post & E & Hp & Hf); [done|by rewrite <-app_assoc|done|].
      exists pre, post. split_and!; [by rewrite <-E, <-app_assoc|done|done]. }
    destruct e; try done; case_decide; auto.
  Qed.
  Lemma not_lost h k n rid opts pub echo e1 e2 os m : Forall (aop_ok uids) h → rids_ok h → h !! k = Some (ACall n rid opts pub echo e1 e2 os) → ¬ gone h n rid k →
    Cl (ac_lost (run h)) k m = 0 ∧ ∀ id, Al (ac_lost (run h)) k m id = 0.
  Proof.
    intros Hok Hr Hk Hg. pose proof (v_lost _ _ _ (run_inv uids h Hok Hr)) as Hl.
    assert (∀ u d r, call_at h k d r → u ≠ d → gone h d r k → False) as Hno. { intros u d r (o & p & c & a & b & z & H & _) _ Hg'. rewrite Hk in H. inversion H; subst. by apply Hg. }
    revert Hl. generalize (ac_lost (run h)). intros lost Hl. induction lost as [|x lost IH]; [done|]. destruct IH as [H1 H2]; [intros; apply Hl; by right|].
    assert (lost_ok h x) as Hx by (apply Hl; by left). split.
    - unfold omap in *. cbn [list_omap]. destruct x as [| |]; [done| |done]. cbn. case_decide as Hd; [|done]. destruct Hd as [-> ->], Hx as (d & ? & ? & ?). exfalso. eauto.
    - intros id. specialize (H2 id). unfold omap in *. cbn [list_omap]. destruct x as [| |]; [done|done|]. cbn. case_decide as Hd; [|done]. destruct Hd as (-> & -> & ->), Hx as (d & ? & ? & ?). exfalso. eauto.
  Qed.
  Lemma finish_in es : 1 ≤ n_finish es → EbFinish ∈ es.
  Proof.
    induction es as [|e es IH]; intros H; [cbn in H; lia|]. destruct e; try (right; by apply IH). by left.
  Qed.
  Lemma all_arrived h k n rid opts echo e1 e2 os : Forall (aop_ok uids) h → rids_ok h → let s := run h in
    h !! k = Some (ACall n rid opts true echo e1 e2 os) → is_local opts = false → ¬ gone h n rid k → ATimer k ∉ h →
    (∀ m, m ∈ uids → requests_to s k m = 0 ∧ counts_way s k m = 0 ∧ waiting s m k = [] ∧ ∀ id, answers_way s k m id = 0) →
    one_arg (events s k) →
    ∃ l, b_calls (bserial (size uids) false (events s k)) = [BOk l] ∧ l ≡ₚ concat (elements uids ≫= λ m, (sent s m k).*1 ≫= answers_from s k m).
  Proof.
    intros Hok Hr s Hk Hloc Hg Ht Hway H1. pose proof (run_cons uids h Hok Hr) as Hc. pose proof (run_hist uids h Hok Hr) as Hh. fold s in Hc, Hh.
    pose proof (λ m, not_lost h k n rid opts true echo e1 e2 os m Hok Hr Hk Hg) as Hlost. fold s in Hlost.
    assert (Hcnt : ∀ m, m ∈ uids → counts_from s k m = [length (sent s m k)]).
    { intros m Hm. pose proof (c_cnt _ _ _ Hc m k Hm) as H. destruct (Hlost m) as [L _]. rewrite L in H. destruct (Hway m Hm) as (W1 & W2 & _). 
      change (Rq (ac_net s) k m) with (requests_to s k m) in H. change (Cw (ac_net s) k m) with (counts_way s k m) in H. rewrite W1, W2 in H. unfold due in H. rewrite Hk, Hloc in H. cbn in H.
      destruct (counts_one h k m Hok Hr Hm) as [E|E]; fold s in E; [|done]. change (Cf (ac_log s) k m) with (counts_from s k m) in H. rewrite E in H. cbn in H. by destruct (decide (m = n)). }
    destruct (all_answered h k Hok Hr Hcnt) as [Hle Hall]. fold s in Hle, Hall.
    assert (Hcomp : complete (size uids) (events s k)).
    { split_and!.
      - apply finish_in. rewrite (l_fin _ _ _ Hh). unfold n_calls. by rewrite Hk.
      - destruct (totals h k Hok Hr) as (Et & _ & _). fold s in Et. rewrite Et. clear Et. change (size uids) with (length (elements uids)). rewrite <-sum_with_one.
        assert (∀ l, (∀ m, m ∈ l → m ∈ elements uids) → sum_list_with (λ m, length (counts_from s k m)) l = sum_list_with (λ _, 1) l) as E; [|by apply E].
        induction l as [|m l IH]; intros Hl; [done|]. cbn. rewrite IH by (intros; apply Hl; by right). rewrite Hcnt; [done|]. apply elem_of_elements, Hl. by left.
      - apply Hall. intros m id Hm Hid. destruct (Hway m Hm) as (_ & _ & W3 & W4). pose proof (c_ans _ _ _ Hc m k id) as Ha. rewrite W3 in Ha. destruct (Hlost m) as [_ L]. rewrite L in Ha.
        change (Aw (ac_net s) k m id) with (answers_way s k m id) in Ha. rewrite W4 in Ha. rewrite (of_nodup (sent s m k) id (c_nodup _ _ _ Hc m k)), decide_True in Ha by done.
        change (Af (ac_log s) k m id) with (answers_from s k m id) in Ha. cbn in Ha. destruct (answers_from s k m id) as [|a [|]]; cbn in Ha; [lia|by exists a|lia]. }
    assert (Htimer : EbTimer ∉ events s k).
    { intros (x & Hx & E)%elem_of_list_omap. case_decide as Hd; [|done]. injection E as E. pose proof (l_log _ _ _ Hh x Hx) as He. unfold entry_ok in He. rewrite E, Hd in He. done. }
    destruct (first_complete (size uids) (events s k) []) as (pre & post & E & Hp & Hf); [|done|done|].
    { intros E. rewrite E in Hcomp. destruct Hcomp as [Hx _]. by apply elem_of_nil in Hx. }
    cbn in E. exists (concat (replies_of pre)). split.
    - rewrite serial_outcome; [by rewrite Hf|done|]. rewrite (l_fin _ _ _ Hh). unfold n_calls. destruct (h !! k) as [[]|]; lia.
    - pose proof (split_replies h k Hok Hr) as Hperm. fold s in Hperm. rewrite <-Hperm, E. destruct Hcomp as (_ & K1 & K2), Hp as (_ & P1 & P2).
      rewrite E, counts_app, app_length in K1. rewrite E, counts_app, replies_app, app_length, sum_list_app in K2.
      assert (counts_of post = []) as Ep by (destruct (counts_of post); [done|cbn in K1; lia]). rewrite Ep in K2. cbn in K2.
      assert (replies_of post = []) as Er by (destruct (replies_of post); [done|cbn in K2; lia]). by rewrite replies_app, Er, app_nil_r.
  Qed.
End totals.

Section history.
  Context (uids : gset string).
  Notation run := (arun uids).
  Lemma sent_step h op m k : inv uids h (run h) → cons uids h (run h) → aop_ok uids op → rids_ok (h ++ [op]) → m ∈ uids → let s := run h in let s' := astep s op in
    (sent s' m k = sent s m k ∧ Rq (ac_net s') k m = Rq (ac_net s) k m ∧ (is_call (h ++ [op]) k → k < length h)) ∨
    (∃ n rid opts pub echo e1 e2 os nd, (h ++ [op]) !! k = Some (ACall n rid opts pub echo e1 e2 os) ∧ ac_nodes s !! m = Some nd ∧ (m = n → k = length h) ∧
      ∀ id, id ∈ (sent s' m k).*1 ↔ matches (an_ns nd) (opt_rooms opts) (opt_except opts) id) ∨
    (∃ n rid opts pub echo e1 e2 os, (h ++ [op]) !! k = Some (ACall n rid opts pub echo e1 e2 os) ∧ m ≠ n ∧ (is_local opts = false → pub = true → Rq (ac_net s') k m = 1)).
  Proof.
    intros Hi Hc Hop Hr Hm. cbv zeta. pose proof (astep_trans uids h (run h) op Hi Hop) as Ht. set (s := run h) in *. generalize dependent (astep s op). intros s' Ht.
    assert (Hlt : (∀ n rid opts pub echo e1 e2 os, op ≠ ACall n rid opts pub echo e1 e2 os) → is_call (h ++ [op]) k → k < length h).
    { intros Hno (n & rid & o & p & c & a & b & r & H). apply lookup_app_Some in H as [H|[_ H]]; [by apply lookup_lt_Some in H|]. apply list_lookup_singleton_Some in H as [_ H]. by apply Hno in H. }
    assert (Hsame : ∀ s0 : acluster, ac_nodes s0 = ac_nodes s → sent s0 m k = sent s m k). { intros s0 E. unfold sent. by rewrite E. }
    destruct Ht as [n rid opts pub echo e1 e2 os nd l Hnd Hnl Hl|i os Hx|i os d rid po t Hx|i os d u rid po t nd l Hx Hud Hnd Hnl Hl|i os d u rid c t nd e Hx Hnd Hreq|i os d u rid c t nd Hx Hnd Hreq
      |i os d u rid a t w nd e Hx Hnd Hreq|i os d u rid a t w nd Hx Hnd Hreq|n id pid a Hno|n id pid a nd e Hnd Hack|n id pid a nd u rid t Hnd Hack|n rid|e|n l].
    - (* TCall *)
      rewrite (v_step _ _ _ Hi). set (op := ACall n rid opts pub echo e1 e2 os) in *. set (s' := next _ _ _ _ _).
      assert (Hnew : (h ++ [op]) !! length h = Some op) by (by rewrite lookup_app_r, Nat.sub_diag).
      pose proof (sent_insert s s' n nd _ m k Hnd eq_refl) as [Hs _].
      assert (Hask : sentn (asked opts rid (length h) nd) k = sentn nd k ∧ an_ids (asked opts rid (length h) nd) = an_ids nd) by (unfold asked; by destruct (is_local opts)).
      destruct (decide (k = length h)) as [->|Hne].
      + destruct (decide (m = n)) as [->|Hmn].
        * right; left. exists n, rid, opts, pub, echo, e1, e2, os, nd. split_and!; [done|done|done|]. intros id. rewrite Hs, sentn_wrote. destruct Hask as [-> ->]. rewrite decide_True by done.
          assert (sentn nd (length h) = []) as ->. { rewrite <-(sent_node s n nd) by done. apply (c_empty _ _ _ Hc). pose proof (c_cnt _ _ _ Hc n (length h) Hm) as H. rewrite due_new in H by done. lia. }
          cbn [app]. rewrite <-list_fmap_compose. rewrite (list_fmap_id : ∀ l : list sid, (fst ∘ (λ i, (i, an_ids nd))) <$> l = l). apply Hl.
        * right; right. exists n, rid, opts, pub, echo, e1, e2, os. split_and!; [done|done|]. intros E1 E2. cbn [s' next ac_net]. rewrite omap_app, app_length.
          rewrite requests_count by (by rewrite (v_dom _ _ _ Hi)). rewrite (v_step _ _ _ Hi), decide_True by done. rewrite E1, E2. cbn.
          pose proof (c_cnt _ _ _ Hc m (length h) Hm) as H. rewrite due_new in H by done. fold s in H. lia.
      + left. split_and!.
        * rewrite Hs. destruct (decide (m = n)) as [->|]; [|done]. rewrite sentn_wrote. destruct Hask as [-> _]. rewrite decide_False by done. rewrite app_nil_r. symmetry. by apply sent_node.
        * cbn [s' next ac_net]. rewrite omap_app, app_length. rewrite requests_count by (by rewrite (v_dom _ _ _ Hi)). rewrite (v_step _ _ _ Hi), decide_False by naive_solver. lia.
        * intros (n' & rid' & o & p & c & a & b & r & H). apply lookup_lt_Some in H. rewrite app_length in H. cbn in H. lia.
    - left. split_and!; [by apply Hsame|done|by apply Hlt].
    - left. split_and!; [by apply Hsame| |by apply Hlt]. cbn [next ac_net]. rewrite (len_delete (f_req k m) _ _ _ Hx). unfold one, f_req at 3. cbn. rewrite decide_False by naive_solver. lia.
    - (* TReq *)
      pose proof (elem_of_list_lookup_2 _ _ _ Hx) as Hin. destruct (v_net _ _ _ Hi _ Hin) as [Hd (opts & echo & e1 & e2 & os' & Hcall & Hloc & -> & Hu & O1 & O2)]. cbn in Hd.
      set (s' := next _ _ _ _ _). pose proof (sent_insert s s' d nd _ m k Hnd eq_refl) as [Hs _]. destruct (decide (m = d ∧ k = t)) as [[-> ->]|Hne].
      + right; left. exists u, rid, opts, true, echo, e1, e2, os', nd. split_and!; [by apply lookup_app_l_Some|done|congruence|].
        intros id. rewrite Hs, decide_True by done. rewrite sentn_wrote, decide_True by done.
        assert (sentn nd t = []) as ->.
        { rewrite <-(sent_node s d nd) by done. apply (c_empty _ _ _ Hc). pose proof (c_cnt _ _ _ Hc d t Hd) as H. pose proof (due_le h t d).
          assert (1 ≤ Rq (ac_net s) t d) by (eapply one_elem; [exact Hin|]; unfold one, f_req; cbn; by rewrite decide_True). fold s in H. lia. }
        cbn [app]. rewrite <-list_fmap_compose. rewrite (list_fmap_id : ∀ l : list sid, (fst ∘ (λ i, (i, an_ids nd))) <$> l = l). rewrite Hl.
        destruct (opts_rooms_hop e1 e2 opts O1 O2) as (R1 & R2 & _). change (list_to_set (po_rooms (encode_options e1 e2 opts))) with (opt_rooms (Some (decode_options (Some (encode_options e1 e2 opts))))).
        change (list_to_set (po_except (encode_options e1 e2 opts))) with (opt_except (Some (decode_options (Some (encode_options e1 e2 opts))))). by rewrite R1, R2.
      + left. split_and!; [| |by apply Hlt].
        * rewrite Hs. destruct (decide (m = d)) as [->|]; [|done]. rewrite sentn_wrote, decide_False by naive_solver. rewrite app_nil_r. symmetry. by apply sent_node.
        * cbn [s' next ac_net]. rewrite len_snoc, (len_delete (f_req k m) _ _ _ Hx). unfold one. cbn. rewrite decide_False by naive_solver. lia.
    - left. split_and!; [by apply Hsame| |by apply Hlt]. cbn [next ac_net]. rewrite (len_delete (f_req k m) _ _ _ Hx). unfold one. cbn. lia.
    - left. split_and!; [by apply Hsame| |by apply Hlt]. cbn [next ac_net]. rewrite (len_delete (f_req k m) _ _ _ Hx). unfold one. cbn. lia.
    - left. split_and!; [by apply Hsame| |by apply Hlt]. cbn [next ac_net]. rewrite (len_delete (f_req k m) _ _ _ Hx). unfold one. cbn. lia.
    - left. split_and!; [by apply Hsame| |by apply Hlt]. cbn [next ac_net]. rewrite (len_delete (f_req k m) _ _ _ Hx). unfold one. cbn. lia.
    - left. split_and!; [by apply Hsame|done|by apply Hlt].
    - left. split_and!; [|done|by apply Hlt]. set (s' := next _ _ _ _ _). destruct (sent_insert s s' n nd _ m k Hnd eq_refl) as [-> _]. destruct (decide (m = n)) as [->|]; [|done]. symmetry. exact (sent_node s n nd k Hnd).
    - left. split_and!; [| |by apply Hlt].
      + set (s' := next _ _ _ _ _). destruct (sent_insert s s' n nd _ m k Hnd eq_refl) as [-> _]. destruct (decide (m = n)) as [->|]; [|done]. symmetry. exact (sent_node s n nd k Hnd).
      + cbn [next ac_net]. rewrite len_snoc. unfold one. cbn. lia.
    - left. split_and!; [|done|by apply Hlt]. by eapply sent_alter.
    - left. split_and!; [by apply Hsame|done|by apply Hlt].
    - left. split_and!; [|done|by apply Hlt]. eapply sent_alter; [done|]. intros nd Hnd. cbn. split; [|done].
      destruct (local_op_wf l (an_ns nd)) as [_ E]; [|by eapply v_wf, v_node|done]. intros id o ->. exact Hop.
  Qed.

  Lemma targets h k m n rid opts pub echo e1 e2 os : Forall (aop_ok uids) h → rids_ok h → m ∈ uids →
    h !! k = Some (ACall n rid opts pub echo e1 e2 os) → m = n ∨ (is_local opts = false ∧ pub = true) → requests_to (run h) k m = 0 →
    ∃ j nd, k ≤ j ∧ j < length h ∧ (m = n → j = k) ∧ ac_nodes (run (take j h)) !! m = Some nd ∧
      ∀ id, id ∈ (sent (run h) m k).*1 ↔ matches (an_ns nd) (opt_rooms opts) (opt_except opts) id.
  Proof.
    induction h as [|op h IH] using rev_ind; intros Hok Hr Hm Hk Hdue Hreq; [done|]. pose proof Hok as Hok'.
    apply Forall_app in Hok as [Hok [Hop _]%Forall_cons]. pose proof (rids_ok_app _ _ Hr) as Hr'. rewrite arun_snoc in *.
    assert (Hlast : k ≤ length h). { apply lookup_lt_Some in Hk. rewrite app_length in Hk. cbn in Hk. lia. }
    destruct (sent_step h op m k (run_inv _ _ Hok Hr') (run_cons _ _ Hok Hr') Hop Hr Hm) as [(-> & E & Hlt)|[(n' & rid' & o & p & c & a & b & r & nd & H & Hnd & Hj & Hids)|(n' & rid' & o & p & c & a & b & r & H & Hne & Hone)]].
    - assert (k < length h) as Hkl by (apply Hlt; by exists n, rid, opts, pub, echo, e1, e2, os). rewrite lookup_app_l in Hk by done.
      destruct (IH Hok Hr' Hm Hk Hdue) as (j & nd & J1 & J2 & J3 & J4 & J5). { rewrite <-Hreq. symmetry. exact E. }
      exists j, nd. split_and!; [done|rewrite app_length; cbn; lia|done| |done]. by rewrite take_app_le by lia.
    - rewrite Hk in H. injection H as <- <- <- <- <- <- <- <-. exists (length h), nd. split_and!; [done|rewrite app_length; cbn; lia|intros E; symmetry; by apply Hj| |done]. by rewrite take_app.
    - rewrite Hk in H. injection H as <- <- <- <- <- <- <- <-. destruct Hdue as [->|[E1 E2]]; [done|]. specialize (Hone E1 E2). unfold requests_to in Hreq. change (Rq (ac_net (astep (run h) op)) k m = 0) in Hreq. lia.
  Qed.

  (** *** After the request expired *)
  Lemma gone_snoc h op n rid t : gone (h ++ [op]) n rid t → gone h n rid t ∨ op = AExpire n rid ∧ t < length h.
  Proof.
    intros (j & Hj & H). apply lookup_app_Some in H as [H|[Hl H]]; [left; by exists j|right]. apply list_lookup_singleton_Some in H as [Hz ->]. split; [done|]. lia.
  Qed.
  Lemma reqs_fresh h n nd rid e : Forall (aop_ok uids) h → rids_ok h → ac_nodes (run h) !! n = Some nd → an_reqs nd !! rid = Some e → ¬ gone h n rid e.
  Proof.
    revert n nd rid e. induction h as [|op h IH] using rev_ind; intros n nd rid e Hok Hr Hnd Hreq; [intros (j & _ & H); done|].
    apply Forall_app in Hok as [Hok [Hop _]%Forall_cons]. pose proof (rids_ok_app _ _ Hr) as Hr'. rewrite arun_snoc in *. specialize (IH n).
    pose proof (run_inv uids h Hok Hr') as Hi. pose proof (astep_trans uids h (run h) op Hi Hop) as Ht. set (s := run h) in *. generalize dependent (astep s op). intros s' Hnd Ht.
    assert (Hold : ∀ nd0, ac_nodes s !! n = Some nd0 → an_reqs nd0 !! rid = Some e → op ≠ AExpire n rid → ¬ gone (h ++ [op]) n rid e).
    { intros nd0 H1 H2 Hne [Hg|[-> _]]%gone_snoc; [|done]. by eapply IH. }
    assert (Hone : ∀ n0 nd0 nd1, ac_nodes s' = <[n0 := nd1]> (ac_nodes s) → ac_nodes s !! n0 = Some nd0 → an_reqs nd1 = an_reqs nd0 → op ≠ AExpire n rid → ¬ gone (h ++ [op]) n rid e).
    { intros n0 nd0 nd1 E Hnd0 E1 Hne. rewrite E in Hnd. apply lookup_insert_Some in Hnd as [[-> ->]|[_ Hnd]]; [|by eapply Hold]. eapply Hold; [done|by rewrite <-E1|done]. }
    destruct Ht as [n' rid' opts pub echo e1 e2 os nd' l Hnd' Hnl Hl|i os Hx|i os d rid' po t Hx|i os d u rid' po t nd' l Hx Hud Hnd' Hnl Hl|i os d u rid' c t nd' e' Hx Hnd' Hreq'|i os d u rid' c t nd' Hx Hnd' Hreq'
      |i os d u rid' a t w nd' e' Hx Hnd' Hreq'|i os d u rid' a t w nd' Hx Hnd' Hreq'|n' id pid a Hno|n' id pid a nd' e' Hnd' Hack|n' id pid a nd' u rid' t Hnd' Hack|n' rid'|e'|n' l];
      try (by eapply Hold); try (by eapply (Hone _ _ _ eq_refl)).
    - cbn [next ac_nodes] in Hnd. rewrite (v_step _ _ _ Hi) in Hnd. apply lookup_insert_Some in Hnd as [[-> <-]|[_ Hnd]]; [|by eapply Hold]. cbn [wrote an_reqs] in Hreq. unfold asked in Hreq.
      destruct (is_local opts); [by eapply Hold|]. cbn in Hreq. apply lookup_insert_Some in Hreq as [[-> <-]|[_ Hreq]]; [|by eapply Hold].
      intros (j & Hj & Hg). apply lookup_lt_Some in Hg. rewrite app_length in Hg. cbn in Hg. lia.
    - cbn [next ac_nodes] in Hnd. destruct (decide (n' = n)) as [->|Hne].
      + rewrite lookup_alter in Hnd. destruct (ac_nodes s !! n) as [nd0|] eqn:E; [|done]. injection Hnd as <-. cbn in Hreq. apply lookup_delete_Some in Hreq as [Hne Hreq].
        eapply Hold; [done|done|congruence].
      + rewrite lookup_alter_ne in Hnd by done. eapply Hold; [done|done|congruence].
    - cbn [next ac_nodes] in Hnd. destruct (decide (n' = n)) as [->|Hne].
      + rewrite lookup_alter in Hnd. destruct (ac_nodes s !! n) as [nd0|] eqn:E; [|done]. injection Hnd as <-. by eapply Hold.
      + rewrite lookup_alter_ne in Hnd by done. by eapply Hold.
  Qed.
  Lemma expired h1 h2 k n rid opts pub echo e1 e2 os m : Forall (aop_ok uids) (h1 ++ h2) → rids_ok (h1 ++ h2) →
    h1 !! k = Some (ACall n rid opts pub echo e1 e2 os) → gone h1 n rid k → m ≠ n →
    counts_from (run (h1 ++ h2)) k m = counts_from (run h1) k m ∧ ∀ id, answers_from (run (h1 ++ h2)) k m id = answers_from (run h1) k m id.
  Proof.
    intros Hok Hr Hk Hg Hm. induction h2 as [|op h2 IH] using rev_ind; [by rewrite app_nil_r|]. rewrite app_assoc in *.
    apply Forall_app in Hok as [Hok [Hop _]%Forall_cons]. pose proof (rids_ok_app _ _ Hr) as Hr'. specialize (IH Hok Hr').
    assert (Hk' : (h1 ++ h2) !! k = Some (ACall n rid opts pub echo e1 e2 os)) by (by apply lookup_app_l_Some).
    assert (Hg' : gone (h1 ++ h2) n rid k). { destruct Hg as (j & ? & ?). exists j. split; [done|]. by apply lookup_app_l_Some. }
    set (h := h1 ++ h2) in *. clearbody h. destruct IH as [IH1 IH2]. rewrite <-IH1. setoid_rewrite <-IH2. clear IH1 IH2. rewrite arun_snoc.
    pose proof (run_inv uids h Hok Hr') as Hi. pose proof (reqs_fresh h) as Hf. pose proof (astep_trans uids h (run h) op Hi Hop) as Ht. set (s := run h) in *. generalize dependent (astep s op). intros s' Ht.
    assert (Hlog : ∀ x : entry, en_call x ≠ k ∨ en_from x ≠ m → 
      omap (g_cnt k m) (ac_log s ++ [x]) = omap (g_cnt k m) (ac_log s) ∧ ∀ id, omap (g_ans k m id) (ac_log s ++ [x]) = omap (g_ans k m id) (ac_log s)).
    { intros x Hx. assert (¬ (en_call x = k ∧ en_from x = m)) as Hno by naive_solver. split; [|intros id]; rewrite omap_snoc; [unfold g_cnt at 2|unfold g_ans at 2]; rewrite decide_False by tauto; by rewrite app_nil_r. }
    assert (Htag : ∀ d nd r, ac_nodes s !! d = Some nd → an_reqs nd !! r = Some k → False).
    { intros d nd r Hnd Hreq. pose proof (v_reqs _ _ _ _ (v_node _ _ _ Hi _ _ Hnd) _ _ Hreq) as (o & p & c & a & b & z & H & _). rewrite Hk' in H. inversion H; subst. by eapply Hf. }
    destruct Ht as [n' rid' opts' pub' echo' e1' e2' os' nd' l Hnd' Hnl Hl|i os' Hx|i os' d rid' po t Hx|i os' d u rid' po t nd' l Hx Hud Hnd' Hnl Hl|i os' d u rid' c t nd' e' Hx Hnd' Hreq'|i os' d u rid' c t nd' Hx Hnd' Hreq'
      |i os' d u rid' a t w nd' e' Hx Hnd' Hreq'|i os' d u rid' a t w nd' Hx Hnd' Hreq'|n' id pid a Hno|n' id pid a nd' e' Hnd' Hack|n' id pid a nd' u rid' t Hnd' Hack|n' rid'|e'|n' l]; try done.
    - unfold counts_from, answers_from. cbn [next ac_log]. rewrite (v_step _ _ _ Hi). apply lookup_lt_Some in Hk'.
      split; [|intros id]; rewrite !omap_snoc; cbn [en_call]; rewrite !(decide_False (P := length h = k ∧ _)) by lia; by rewrite !app_nil_r.
    - apply (Hlog (Entry e' u None (EbCount c))). destruct (decide (e' = k)) as [->|]; [|by left]. exfalso. by eapply Htag.
    - apply (Hlog (Entry e' u (Some w) (EbReply a))). destruct (decide (e' = k)) as [->|]; [|by left]. exfalso. by eapply Htag.
    - apply (Hlog (Entry e' n' (Some id) (EbReply a))). destruct (decide (e' = k)) as [->|]; [|by left]. right. cbn.
      destruct (v_acks _ _ _ _ (v_node _ _ _ Hi _ _ Hnd') _ _ _ Hack) as [_ (r & o & p & q & a1 & b1 & z & Hcall)]. rewrite Hk' in Hcall. inversion Hcall; subst. congruence.
    - unfold counts_from, answers_from. cbn [next ac_log].
      split; [|intros id]; rewrite !omap_snoc; cbn [en_call en_ev]; case_decide; by rewrite !app_nil_r.
  Qed.
End history.

(** *** The statements of the properties *)
Section statements.
  Context (uids : gset string).
  Notation run := (arun uids).
  Lemma not_lost' h k n rid opts pub echo e1 e2 os m : Forall (aop_ok uids) h → rids_ok h → h !! k = Some (ACall n rid opts pub echo e1 e2 os) →
    m = n ∨ (∀ j, k < j → h !! j ≠ Some (AExpire n rid)) → Cl (ac_lost (run h)) k m = 0 ∧ ∀ id, Al (ac_lost (run h)) k m id = 0.
  Proof.
    intros Hok Hr Hk [->|Hg].
    2:{ eapply not_lost; [done|done|exact Hk|]. intros (j & ? & ?). by eapply Hg. }
    pose proof (v_lost _ _ _ (run_inv uids h Hok Hr)) as Hl.
    assert (∀ d r, call_at h k d r → n ≠ d → False) as Hno. { intros d r (o & p & c & a & b & z & H & _) Hne. rewrite Hk in H. by inversion H. }
    revert Hl. generalize (ac_lost (run h)). intros lost Hl. induction lost as [|x lost IH]; [done|]. destruct IH as [H1 H2]; [intros; apply Hl; by right|].
    assert (lost_ok h x) as Hx by (apply Hl; by left). split.
    - unfold omap in *. cbn [list_omap]. destruct x as [| |]; [done| |done]. cbn. case_decide as Hd; [|done]. destruct Hd as [-> ->], Hx as (d & ? & ? & ?). exfalso. eauto.
    - intros id. specialize (H2 id). unfold omap in *. cbn [list_omap]. destruct x as [| |]; [done|done|]. cbn. case_decide as Hd; [|done]. destruct Hd as (-> & -> & ->), Hx as (d & ? & ? & ?). exfalso. eauto.
  Qed.
  Lemma reports h k m n rid opts pub echo e1 e2 os : Forall (aop_ok uids) h → rids_ok h → m ∈ uids → h !! k = Some (ACall n rid opts pub echo e1 e2 os) →
    let s := run h in let asked := if decide (m = n) then 1 else if negb (is_local opts) && pub then 1 else 0 in
    requests_to s k m + counts_way s k m + length (counts_from s k m) ≤ asked ∧
    (∀ c, c ∈ counts_from s k m → c = length (sent s m k)) ∧
    (m = n ∨ (∀ j, k < j → h !! j ≠ Some (AExpire n rid)) → requests_to s k m + counts_way s k m + length (counts_from s k m) = asked) ∧
    (m = n → counts_from s k m = [length (sent s m k)]).
  Proof.
    intros Hok Hr Hm Hk s asked. pose proof (run_cons uids h Hok Hr) as Hc. fold s in Hc. pose proof (c_cnt _ _ _ Hc m k Hm) as H. unfold due in H. rewrite Hk in H.
    change (Rq (ac_net s) k m) with (requests_to s k m) in H. change (Cw (ac_net s) k m) with (counts_way s k m) in H. change (Cf (ac_log s) k m) with (counts_from s k m) in H. fold asked in H.
    assert (m = n ∨ (∀ j, k < j → h !! j ≠ Some (AExpire n rid)) → requests_to s k m + counts_way s k m + length (counts_from s k m) = asked) as Heq.
    { intros Hg. destruct (not_lost' h k n rid opts pub echo e1 e2 os m Hok Hr Hk Hg) as [L _]. fold s in L. rewrite L in H. lia. }
    split_and!; [lia|intros c; apply (c_val _ _ _ Hc)|done|]. intros ->.
    assert (requests_to s k n + counts_way s k n = 0) as H0.
    { specialize (Heq (or_introl eq_refl)). unfold asked in Heq. rewrite decide_True in Heq by done. 
      assert (requests_to s k n = 0 ∧ counts_way s k n = 0) as [-> ->]; [|done]. pose proof (v_net _ _ _ (run_inv uids h Hok Hr)) as Hn. fold s in Hn.
      clear -Hn Hk. unfold requests_to, counts_way. induction (ac_net s) as [|[d x] net IH]; [done|]. destruct IH as [H1 H2]; [intros y Hy; apply Hn; by right|].
      assert (msg_ok uids h (d, x)) as Hx by (apply Hn; by left). unfold omap in *. cbn [list_omap]. cbn. destruct x as [u r po t|u r c t|u r a t w]; cbn; [|case_decide as Hd|].
      - split; [|done]. case_decide as Hd; [|done]. destruct Hd as (-> & Hu & ->), Hx as [_ (o & c & a & b & z & Hc & _)]. cbn in Hc. rewrite Hk in Hc. by inversion Hc.
      - destruct Hd as [-> ->], Hx as (_ & _ & Hne & (o & p & c' & a & b & z & Hc & _)). cbn in *. rewrite Hk in Hc. by inversion Hc.
      - done.
      - done. }
    destruct (counts_one uids h k n Hok Hr Hm) as [E|E]; [|done]. fold s in E. rewrite E in Heq. specialize (Heq (or_introl eq_refl)). unfold asked in Heq. rewrite decide_True in Heq by done. cbn in Heq. lia.
  Qed.
  Lemma waiting_nodup h k m : Forall (aop_ok uids) h → rids_ok h → NoDup (waiting (run h) m k).*1.
  Proof.
    intros Hok Hr. pose proof (c_nodup _ _ _ (run_cons uids h Hok Hr) m k) as Hnd. unfold waiting. destruct (ac_nodes (run h) !! m); [|constructor].
    revert Hnd. induction (sent (run h) m k) as [|p l IH]; intros Hnd; [done|]. rewrite fmap_cons in Hnd. apply NoDup_cons in Hnd as [Hp Hnd]. rewrite filter_cons. case_decide; [|by apply IH].
    rewrite fmap_cons. apply NoDup_cons. split; [|by apply IH]. intros (q & E & Hq)%elem_of_list_fmap. apply elem_of_list_filter in Hq as [_ Hq]. apply Hp. rewrite E. by apply elem_of_list_fmap_1.
  Qed.
  Lemma answers h k m id n rid opts pub echo e1 e2 os : Forall (aop_ok uids) h → rids_ok h → h !! k = Some (ACall n rid opts pub echo e1 e2 os) →
    let s := run h in
    let total := (if decide (id ∈ (waiting s m k).*1) then 1 else 0) + answers_way s k m id + length (answers_from s k m id) in
    let notified := if decide (id ∈ (sent s m k).*1) then 1 else 0 in
    total ≤ notified ∧ (m = n ∨ (∀ j, k < j → h !! j ≠ Some (AExpire n rid)) → total = notified).
  Proof.
    intros Hok Hr Hk s total notified. pose proof (run_cons uids h Hok Hr) as Hc. fold s in Hc. pose proof (c_ans _ _ _ Hc m k id) as H.
    rewrite (of_nodup _ id (c_nodup _ _ _ Hc m k)), (of_nodup (waiting s m k) id (waiting_nodup h k m Hok Hr)) in H.
    change (Aw (ac_net s) k m id) with (answers_way s k m id) in H. change (Af (ac_log s) k m id) with (answers_from s k m id) in H. fold notified in H.
    split; [unfold total; lia|]. intros Hg. destruct (not_lost' h k n rid opts pub echo e1 e2 os m Hok Hr Hk Hg) as [_ L]. fold s in L. rewrite L in H. unfold total. lia.
  Qed.
  Lemma source h k m id a : Forall (aop_ok uids) h → rids_ok h → a ∈ answers_from (run h) k m id →
    ∃ h1 pid h2, h = h1 ++ AClient m id pid a :: h2 ∧ (id, pid) ∈ sent (run h1) m k.
  Proof.
    intros Hok Hr (x & Hx & E)%elem_of_list_omap. pose proof (l_log _ _ _ (run_hist uids h Hok Hr) x Hx) as He. unfold entry_ok in He. case_decide as Hd; [|done]. destruct Hd as (<- & <- & Hw).
    destruct (en_ev x); try done. injection E as ->. destruct He as (_ & _ & i & Hi & Ha). rewrite Hw in Hi. injection Hi as <-. exact Ha.
  Qed.
  Lemma expired_later h k j m n rid opts pub echo e1 e2 os : Forall (aop_ok uids) h → rids_ok h → h !! k = Some (ACall n rid opts pub echo e1 e2 os) →
    k < j → h !! j = Some (AExpire n rid) → m ≠ n →
    counts_from (run h) k m = counts_from (run (take (S j) h)) k m ∧ ∀ id, answers_from (run h) k m id = answers_from (run (take (S j) h)) k m id.
  Proof.
    intros Hok Hr Hk Hj He Hm. assert (Hx : h = take (S j) h ++ drop (S j) h) by (by rewrite take_drop).
    destruct (expired uids (take (S j) h) (drop (S j) h) k n rid opts pub echo e1 e2 os m) as [H1 H2]; [by rewrite <-Hx|by rewrite <-Hx|by rewrite lookup_take by lia| |done|].
    - exists j. split; [done|]. by rewrite lookup_take by lia.
    - rewrite <-Hx in H1, H2. done.
  Qed.
  Lemma never_complete h k n rid opts pub echo e1 e2 os ls b l : Forall (aop_ok uids) h → rids_ok h → h !! k = Some (ACall n rid opts pub echo e1 e2 os) →
    is_local opts = true ∨ pub = false → 2 ≤ size uids →
    bexec (size uids) false ls bst0 = Some b → lcounts ls = counts_of (events (run h) k) → BOk l ∉ b_calls b.
  Proof.
    intros Hok Hr Hk Hno Hsize Hb E Hin. destruct (all_counted uids h k Hok Hr) as [Hle Hall].
    destruct (ci_calls _ _ _ _ (bexec_inv _ _ _ _ Hb)) with (c := BOk l) as [(l' & rest & Ec & _)|(l' & rest & Ec & Hn & _)]; [unfold all_in; by rewrite E|done|done|].
    rewrite E in Hn. specialize (Hall Hn).
    assert (∃ m, m ∈ uids ∧ m ≠ n) as (m & Hm & Hne).
    { destruct (decide (uids ∖ {[n]} = ∅)) as [E0|Hx]; [|apply set_choose_L in Hx as [m Hx]; exists m; by apply elem_of_difference in Hx as [? ?%not_elem_of_singleton]].
      assert (size uids ≤ size ({[n]} : gset string)) as Hs; [|rewrite size_singleton in Hs; lia]. apply subseteq_size. intros x Hx. apply elem_of_singleton. destruct (decide (x = n)) as [|Hxn]; [done|].
      destruct (not_elem_of_empty (C := gset string) x). rewrite <-E0. apply elem_of_difference. split; [done|]. by apply not_elem_of_singleton. }
    destruct (reports h k m n rid opts pub echo e1 e2 os Hok Hr Hm Hk) as (H & _). rewrite Hall in H by done. rewrite decide_False in H by done.
    assert (negb (is_local opts) && pub = false) as Ef by (destruct Hno as [-> | ->]; [done|by rewrite andb_false_r]). rewrite Ef in H. cbn in H. lia.
  Qed.
  Lemma once h k m n rid opts pub echo e1 e2 os : Forall (aop_ok uids) h → rids_ok h → m ∈ uids → h !! k = Some (ACall n rid opts pub echo e1 e2 os) → let s := run h in
    NoDup (sent s m k).*1 ∧ requests_to s k m ≤ 1 ∧ (requests_to s k m = 1 → sent s m k = []) ∧ (m ≠ n → is_local opts = true ∨ pub = false → sent s m k = []).
  Proof.
    intros Hok Hr Hm Hk s. pose proof (run_cons uids h Hok Hr) as Hc. fold s in Hc. pose proof (c_cnt _ _ _ Hc m k Hm) as H. pose proof (due_le h k m) as Hd.
    change (requests_to s k m) with (Rq (ac_net s) k m). split_and!; [apply (c_nodup _ _ _ Hc)|lia| |].
    - intros E. apply (c_empty _ _ _ Hc). lia.
    - intros Hne Hno. apply (c_empty _ _ _ Hc). unfold due in H. rewrite Hk, decide_False in H by done.
      assert (negb (is_local opts) && pub = false) as Ef by (destruct Hno as [-> | ->]; [done|by rewrite andb_false_r]). rewrite Ef in H. lia.
  Qed.
  Lemma everything_arrived h k n rid opts echo e1 e2 os : Forall (aop_ok uids) h → rids_ok h → let s := run h in
    h !! k = Some (ACall n rid opts true echo e1 e2 os) → is_local opts = false →
    (∀ j, k < j → h !! j ≠ Some (AExpire n rid)) → ATimer k ∉ h →
    (∀ m, m ∈ uids → requests_to s k m = 0 ∧ counts_way s k m = 0 ∧ waiting s m k = [] ∧ ∀ id, answers_way s k m id = 0) →
    one_arg (events s k) →
    ∃ l, b_calls (bserial (size uids) false (events s k)) = [BOk l] ∧ l ≡ₚ concat (elements uids ≫= λ m, (sent s m k).*1 ≫= answers_from s k m).
  Proof. intros Hok Hr s Hk Hl Hg. eapply all_arrived; [done|done|exact Hk|done|]. intros (j & ? & ?). by eapply Hg. Qed.
End statements.
