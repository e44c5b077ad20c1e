(** Proofs about [ClusterFetch.v]: the history of each server, origin and conservation of messages. *)
From Verif Require Import Base GoTypes Rooms RoomsSpec RoomsProofs Adapter AdapterSpec AdapterProofs Cluster ClusterSpec ClusterProofs ClusterReq ClusterReqSpec ClusterReqProofs ClusterExamples ClusterAckProofs ClusterFetch ClusterFetchSpec ClusterFetchProofs.

Section proofs.
  Context (timeout : Z) (uids : gset string).
  Notation step := (fstep timeout).
  Notation run := (frun timeout uids).
  Notation ok := (Forall (fop_ok uids)).

  Lemma frun_snoc h op : run (h ++ [op]) = step (run h) op.
  Proof. unfold frun. by rewrite foldl_app. Qed.

  (** *** The history of one server *)
  Fixpoint hist_from (s : fcluster) (h : list fop) (n : string) : list hev :=
    match h with [] => [] | op :: h => evs s op n ++ hist_from (step s op) h n end.
  Definition hist (h : list fop) (n : string) : list hev := hist_from (finit uids) h n.
  Lemma hist_from_app s h1 h2 n : hist_from s (h1 ++ h2) n = hist_from s h1 n ++ hist_from (foldl step s h1) h2 n.
  Proof. revert s. induction h1 as [|op h1 IH]; intros s; [done|]. cbn. by rewrite IH, app_assoc. Qed.
  Lemma hist_app h1 h2 n : hist (h1 ++ h2) n = hist h1 n ++ hist_from (run h1) h2 n.
  Proof. apply hist_from_app. Qed.
  Lemma hist_snoc h op n : hist (h ++ [op]) n = hist h n ++ evs (run h) op n.
  Proof. rewrite hist_app. cbn. by rewrite app_nil_r. Qed.
  Lemma hist_elem h n x : x ∈ hist h n → ∃ h1 op h2, h = h1 ++ op :: h2 ∧ x ∈ evs (run h1) op n.
  Proof.
    induction h as [|op h IH] using rev_ind; [by intros ?%elem_of_nil|]. rewrite hist_snoc. intros [H|H]%elem_of_app.
    - destruct (IH H) as (h1 & op' & h2 & -> & ?). exists h1, op', (h2 ++ [op]). by rewrite <-app_assoc.
    - by exists h, op, [].
  Qed.
  Lemma hist_from_elem h0 h n x : x ∈ hist_from (run h0) h n → ∃ h1 op h2, h = h1 ++ op :: h2 ∧ x ∈ evs (run (h0 ++ h1)) op n.
  Proof.
    revert h0. induction h as [|op h IH]; intros h0; cbn; [by intros ?%elem_of_nil|]. intros [H|H]%elem_of_app.
    - exists [], op, h. by rewrite app_nil_r.
    - rewrite <-frun_snoc in H. destruct (IH _ H) as (h1 & op' & h2 & -> & H'). exists (op :: h1), op', h2. split; [done|]. by rewrite <-app_assoc in H'.
  Qed.
  Lemma node_hist h n nd : fc_nodes (run h) !! n = Some nd → fn_hb nd = hrun n timeout (hist h n).
  Proof.
    revert nd. induction h as [|op h IH] using rev_ind; intros nd Hnd.
    - unfold frun in Hnd. cbn in Hnd. apply lookup_gset_to_gmap_Some in Hnd as [_ <-]. done.
    - rewrite frun_snoc, step_node in Hnd. apply fmap_Some in Hnd as (nd0 & Hnd0 & ->). rewrite hist_snoc. unfold hrun. rewrite foldl_app. cbn. f_equal. by apply IH.
  Qed.
  Lemma evs_ok s op n : fop_ok uids op → Forall hev_ok (evs s op n).
  Proof.
    intros Ho. unfold evs.
    destruct op as [n' cb rid opts pub echo e1 e2 os|n' [cb|] rid ev args pub echo|i t o os|n' u rid args|n' rid|n' t o u m|n' t on o|n' l]; cbn in Ho; repeat case_match; try (apply Forall_nil; exact I); apply Forall_singleton; cbn; first [exact I|exact Ho|apply Ho].
  Qed.
  Lemma hist_ok h n : ok h → Forall hev_ok (hist h n).
  Proof.
    induction h as [|op h IH] using rev_ind; [by constructor|]. intros Ha. apply Forall_app in Ha as [H1 H2]. apply Forall_cons in H2 as [H2 _]. rewrite hist_snoc. apply Forall_app. split; [by apply IH|by apply evs_ok].
  Qed.

  (** *** Simple invariants *)
  Lemma run_step h : fc_step (run h) = length h.
  Proof. induction h as [|op h IH] using rev_ind; [done|]. rewrite frun_snoc, step_count, IH, app_length. cbn. lia. Qed.
  Lemma run_dom h : dom (fc_nodes (run h)) = uids.
  Proof. induction h as [|op h IH] using rev_ind; [unfold frun; cbn; apply dom_gset_to_gmap|]. by rewrite frun_snoc, step_dom. Qed.
  Lemma run_node h n : n ∈ uids → ∃ nd, fc_nodes (run h) !! n = Some nd.
  Proof. intros H. assert (n ∈ dom (fc_nodes (run h))) as [nd Hn]%elem_of_dom by (rewrite run_dom; done). by exists nd. Qed.
  Lemma node_uid h n nd : fc_nodes (run h) !! n = Some nd → n ∈ uids.
  Proof. intros H. assert (n ∈ dom (fc_nodes (run h))) as Hd by by eapply elem_of_dom_2. by rewrite run_dom in Hd. Qed.
  Lemma run_wf h n nd : ok h → fc_nodes (run h) !! n = Some nd → ns_wf (fn_ns nd).
  Proof.
    revert nd. induction h as [|op h IH] using rev_ind; intros nd Ho Hnd.
    - unfold frun in Hnd. cbn in Hnd. apply lookup_gset_to_gmap_Some in Hnd as [_ <-]. apply ns_wf_alt. split_and!; [apply empty_inv|done|]. intros id [a Ha]. done.
    - apply Forall_app in Ho as [Ho Hop]. apply Forall_cons in Hop as [Hop _]. rewrite frun_snoc, step_node in Hnd. apply fmap_Some in Hnd as (nd0 & Hnd0 & ->).
      cbn. pose proof (IH _ Ho Hnd0) as W. destruct op; try exact W. cbn. case_decide; [|done]. apply local_op_wf; [|done]. intros id o ->. exact Hop.
  Qed.

  (** *** Origin of the requests on the way *)
  Definition req_ok (h : list fop) (x : string * fmsg) : Prop :=
    match x.2 with
    | QFetch u rid po => x.1 ∈ uids ∧ u ∈ uids ∧ ∃ k cb opts echo e1 e2 os, h !! k = Some (FFetch u cb rid opts true echo e1 e2 os) ∧ po = encode_options e1 e2 opts ∧ order_ok e1 ∧ order_ok e2
    | QEmit u rid pk tag => x.1 ∈ uids ∧ u ∈ uids ∧ ∃ ack rid0 ev args echo, h !! tag = Some (FEmit u ack rid0 ev args true echo) ∧ pk = VStr ev :: args ∧ rid = match ack with Some _ => Some rid0 | None => None end
    | QResponse _ _ => True
    end.
  Lemma req_ok_mono h x op : req_ok h x → req_ok (h ++ [op]) x.
  Proof.
    unfold req_ok. destruct x.2 as [u rid po|u rid pk tag|u r]; [| |done].
    - intros (? & ? & k & cb & opts & echo & e1 & e2 & os & H & ?). split_and!; try done. exists k, cb, opts, echo, e1, e2, os. split; [by apply lookup_app_l_Some|done].
    - intros (? & ? & ack & rid0 & ev & args & echo & H & ?). split_and!; try done. exists ack, rid0, ev, args, echo. split; [by apply lookup_app_l_Some|done].
  Qed.
  Lemma kept_elem s op x : x ∈ kept s op → x ∈ fc_net s.
  Proof. destruct op; try done. apply elem_delete. Qed.
  Lemma dests_elem h n echo d : d ∈ dests (run h) n echo → d ∈ uids.
  Proof. unfold dests. rewrite elem_of_elements, run_dom. destruct echo; [done|]. by intros [? _]%elem_of_difference. Qed.
  Lemma lookup_last {A} (l : list A) x : (l ++ [x]) !! length l = Some x.
  Proof. by apply list_lookup_middle. Qed.
  Lemma requests_ok h x : ok h → x ∈ fc_net (run h) → req_ok h x.
  Proof.
    induction h as [|op h IH] using rev_ind; intros Ho Hx; [by apply elem_of_nil in Hx|].
    apply Forall_app in Ho as [Ho Hop]. apply Forall_cons in Hop as [Hop _]. rewrite frun_snoc, step_net in Hx. apply elem_of_app in Hx as [Hx|Hx].
    { apply req_ok_mono, IH; [done|]. by eapply kept_elem. }
    destruct op as [n cb rid opts pub echo e1 e2 os|n ack rid ev args pub echo|i t o os|n u rid args|n rid|n t o u m|n t on o|n l]; cbn [sends] in Hx; try (by apply elem_of_nil in Hx).
    - destruct (asking timeout (run h) (FFetch n cb rid opts pub echo e1 e2 os)) eqn:Ea; [|by apply elem_of_nil in Hx].
      apply elem_of_list_fmap in Hx as (d & -> & Hd). destruct Hop as (? & ? & ? & ?). unfold req_ok. cbn [fst snd]. split_and!; [by eapply dests_elem|done|].
      assert (pub = true) as ->. { cbn in Ea. case_match; [|done]. by apply andb_true_iff in Ea as [_ ?]. }
      exists (length h), cb, opts, echo, e1, e2, os. split_and!; try done. apply lookup_last.
    - destruct (asking timeout (run h) (FEmit n ack rid ev args pub echo)) eqn:Ea; [|by apply elem_of_nil in Hx].
      apply elem_of_list_fmap in Hx as (d & -> & Hd). unfold req_ok. cbn [fst snd]. split_and!; [by eapply dests_elem|done|].
      assert (pub = true) as ->. { cbn in Ea. destruct ack; (case_match; [|done]); [by apply andb_true_iff in Ea as [_ ?]|done]. }
      exists ack, rid, ev, args, echo. rewrite run_step. split_and!; try done. apply lookup_last.
    - destruct (fc_net (run h) !! i) as [[d [u rid po|u rid pk tg|u r]]|]; try (by apply elem_of_nil in Hx).
      destruct (fc_nodes (run h) !! d); [|by apply elem_of_nil in Hx]. case_decide; [by apply elem_of_nil in Hx|]. by apply elem_of_list_singleton in Hx as ->.
    - destruct (fc_nodes (run h) !! n); [|by apply elem_of_nil in Hx]. case_decide; [|by apply elem_of_nil in Hx]. by apply elem_of_list_singleton in Hx as ->.
  Qed.

  (** *** Events are heard once *)
  Definition f_ev (m : string) (k : nat) : string * fmsg → option () :=
    λ x, match x.2 with QEmit u _ _ t => if decide (x.1 = m ∧ u ≠ m ∧ t = k) then Some () else None | _ => None end.
  Definition f_heard (k : nat) : nat * (string * list value) → option (string * list value) := λ x, if decide (x.1 = k) then Some x.2 else None.
  Lemma heard_node s m k nd : fc_nodes s !! m = Some nd → heard s m k = omap (f_heard k) (fn_heard nd).
  Proof. intros E. unfold heard. by rewrite E. Qed.
  Lemma heard_step h op m k : heard (run (h ++ [op])) m k = heard (run h) m k ++ match fc_nodes (run h) !! m with Some _ => omap (f_heard k) (hears (run h) op m) | None => [] end.
  Proof.
    rewrite frun_snoc. unfold heard. rewrite step_node. destruct (fc_nodes (run h) !! m) as [nd|]; [|done]. cbn. rewrite omap_app. done.
  Qed.
  Lemma heard_prefix h1 h2 m k : heard (run h1) m k `prefix_of` heard (run (h1 ++ h2)) m k.
  Proof.
    induction h2 as [|op h2 IH] using rev_ind; [by rewrite app_nil_r|]. rewrite app_assoc, heard_step. etrans; [exact IH|]. by apply prefix_app_r.
  Qed.
  Lemma elements_count (X : gset string) (f : string → option ()) m : m ∈ X → f m = Some () → (∀ d, d ≠ m → f d = None) → length (omap f (elements X)) = 1.
  Proof.
    intros Hm Hf Hn. pose proof (NoDup_elements X) as Hnd. apply elem_of_elements in Hm. revert Hnd Hm. generalize (elements X). intros l. induction l as [|d l IH]; intros Hnd Hm; [by apply elem_of_nil in Hm|].
    apply NoDup_cons in Hnd as [Hd Hnd]. cbn. destruct (decide (d = m)) as [->|Hne].
    - rewrite Hf. cbn. f_equal. clear IH Hm. induction l as [|d l IH]; [done|]. cbn. apply not_elem_of_cons in Hd as [? ?]. rewrite Hn by done. apply NoDup_cons in Hnd as [_ ?]. auto.
    - rewrite Hn by done. apply IH; [done|]. apply elem_of_cons in Hm as [->|]; done.
  Qed.
  Lemma omap_none {A B} (f : A → option B) (l : list A) : (∀ x, x ∈ l → f x = None) → omap f l = [].
  Proof. induction l as [|x l IH]; intros H; [done|]. cbn. rewrite H by by left. apply IH. intros y Hy. apply H. by right. Qed.
  Lemma omap_fmap_list {A B C} (f : B → option C) (g : A → B) (l : list A) : omap f (g <$> l) = omap (λ x, f (g x)) l.
  Proof. induction l as [|x l IH]; [done|]. cbn. destruct (f (g x)); by rewrite <-IH. Qed.

  Lemma kept_count {B} (f : string * fmsg → option B) s op :
    length (omap f (fc_net s)) = length (omap f (kept s op)) + match op with FDeliver i _ _ _ => match fc_net s !! i with Some x => one f x | None => 0 end | _ => 0 end.
  Proof.
    destruct op as [| |i t o os| | | | |]; cbn [kept]; try lia. destruct (fc_net s !! i) as [x|] eqn:E; [by apply len_delete|].
    rewrite delete_take_drop. apply lookup_ge_None in E. rewrite take_ge, drop_ge, app_nil_r by lia. lia.
  Qed.
  Lemma net_count {B} (f : string * fmsg → option B) s op :
    length (omap f (fc_net (step s op))) + match op with FDeliver i _ _ _ => match fc_net s !! i with Some x => one f x | None => 0 end | _ => 0 end
    = length (omap f (fc_net s)) + length (omap f (sends timeout s op)).
  Proof. rewrite step_net, omap_app, app_length. pose proof (kept_count f s op). lia. Qed.
  Definition emits (s : fcluster) (op : fop) (m : string) : nat :=
    match op with FEmit n _ _ _ _ _ _ => if decide (n ≠ m ∧ asking timeout s op = true) then 1 else 0 | _ => 0 end.
  Lemma sends_ev h op m k : m ∈ uids → length (omap (f_ev m k) (sends timeout (run h) op)) = if decide (k = length h) then emits (run h) op m else 0.
  Proof.
    intros Hm. destruct op as [n cb rid opts pub echo e1 e2 os|n ack rid ev args pub echo|i t o os|n u rid args|n rid|n t o u m'|n t on o|n l]; cbn [sends emits]; try (by destruct (decide (k = length h))).
    - rewrite omap_none; [by case_decide|]. intros x Hx. case_match; [|by apply elem_of_nil in Hx]. by apply elem_of_list_fmap in Hx as (d & -> & _).
    - destruct (asking timeout (run h) (FEmit n ack rid ev args pub echo)).
      2: { rewrite (decide_False (P := _ ∧ false = true)) by by intros []. by destruct (decide (k = length h)). }
      rewrite omap_fmap_list. cbn [f_ev]. unfold f_ev. cbn [fst snd]. rewrite run_step. destruct (decide (k = length h)) as [->|Hk].
      2: { rewrite omap_none; [done|]. intros x _. rewrite decide_False by (intros (_ & _ & E); by apply Hk). done. }
      destruct (decide (n ≠ m ∧ true = true)) as [[Hn _]|Hn].
      + apply elements_count with m.
        * rewrite run_dom. destruct echo; [done|]. apply elem_of_difference. split; [done|]. rewrite elem_of_singleton. congruence.
        * by rewrite decide_True.
        * intros d Hd. rewrite decide_False; [done|]. by intros [? _].
      + rewrite omap_none; [done|]. intros x _. rewrite decide_False; [done|]. intros (_ & ? & _). tauto.
    - rewrite omap_none; [by case_decide|]. intros x Hx. destruct (fc_net (run h) !! i) as [[d [u rid po|u rid pk tg|u r]]|]; try (by apply elem_of_nil in Hx).
      destruct (fc_nodes (run h) !! d); [|by apply elem_of_nil in Hx]. case_decide; [by apply elem_of_nil in Hx|]. by apply elem_of_list_singleton in Hx as ->.
    - rewrite omap_none; [by case_decide|]. intros x Hx. destruct (fc_nodes (run h) !! n); [|by apply elem_of_nil in Hx]. case_decide; [|by apply elem_of_nil in Hx]. by apply elem_of_list_singleton in Hx as ->.
  Qed.
  Lemma hears_ev h op m k : ok h → m ∈ uids →
    length (omap (f_heard k) (hears (run h) op m)) = match op with FDeliver i _ _ _ => match fc_net (run h) !! i with Some x => one (f_ev m k) x | None => 0 end | _ => 0 end.
  Proof.
    intros Ho Hm. destruct op as [| |i t o os| | | | |]; try done. cbn [hears]. destruct (fc_net (run h) !! i) as [[d [u rid po|u rid pk tg|u r]]|] eqn:E; try done.
    assert (req_ok h (d, QEmit u rid pk tg)) as (_ & _ & ack & rid0 & ev & args & echo & _ & -> & _) by (apply requests_ok; [done|by eapply elem_of_list_lookup_2]).
    unfold one, f_ev. cbn. destruct (decide (d = m ∧ u ≠ m)) as [[-> Hu]|Hn].
    - cbn. unfold f_heard. cbn. destruct (decide (tg = k)) as [->|Hk]; [by rewrite decide_True|]. rewrite decide_False; [done|]. by intros (_ & _ & ?).
    - rewrite decide_False; [done|]. intros (? & ? & _). tauto.
  Qed.
  Lemma events_total h m k : ok h → m ∈ uids →
    events_way (run h) m k + length (heard (run h) m k) = match h !! k with Some op => emits (run (take k h)) op m | None => 0 end.
  Proof.
    intros Ho Hm. induction h as [|op h IH] using rev_ind.
    { cbn. unfold heard. case_match eqn:E; [|done]. unfold frun in E. cbn in E. apply lookup_gset_to_gmap_Some in E as [_ <-]. done. }
    apply Forall_app in Ho as [Ho _]. specialize (IH Ho). rewrite heard_step, app_length. destruct (run_node h m Hm) as [nd ->].
    rewrite hears_ev by done. pose proof (net_count (f_ev m k) (run h) op) as Hc. rewrite <-frun_snoc, sends_ev in Hc by done.
    change (length (omap (f_ev m k) (fc_net (run (h ++ [op]))))) with (events_way (run (h ++ [op])) m k) in Hc. change (length (omap (f_ev m k) (fc_net (run h)))) with (events_way (run h) m k) in Hc.
    destruct (lt_eq_lt_dec k (length h)) as [[Hk| ->]|Hk].
    - rewrite decide_False in Hc by lia. rewrite lookup_app_l, take_app_le by lia. lia.
    - rewrite decide_True in Hc by done. rewrite lookup_last, take_app. rewrite lookup_ge_None_2 in IH by lia. lia.
    - rewrite decide_False in Hc by lia. rewrite lookup_ge_None_2 in IH by lia. rewrite lookup_ge_None_2 by (rewrite app_length; cbn; lia). lia.
  Qed.

  Lemma emits_le s op m : emits s op m ≤ 1.
  Proof. unfold emits. destruct op; try lia. case_decide; lia. Qed.
  Lemma events_le h m k : ok h → m ∈ uids → events_way (run h) m k + length (heard (run h) m k) ≤ 1.
  Proof. intros Ho Hm. rewrite events_total by done. case_match; [apply emits_le|lia]. Qed.
  Lemma heard_stable h1 h2 m k x : ok (h1 ++ h2) → m ∈ uids → heard (run h1) m k = [x] → heard (run (h1 ++ h2)) m k = [x].
  Proof.
    intros Ho Hm E. destruct (heard_prefix h1 h2 m k) as [l El]. pose proof (events_le (h1 ++ h2) m k Ho Hm) as Hl. rewrite El, E in Hl. rewrite El, E.
    destruct l; [done|]. cbn in Hl. lia.
  Qed.
  Lemma heard_before h1 h2 m k : heard (run (h1 ++ h2)) m k = [] → heard (run h1) m k = [].
  Proof. intros E. destruct (heard_prefix h1 h2 m k) as [l El]. rewrite E in El. by symmetry in El; apply app_eq_nil in El as [? _]. Qed.

  (** *** Origin of the responses *)
  Lemma remote_described {P} (ns : nspace P) id : ns_wf ns → other_socket ns id (remote_details ns id).
  Proof. intros (Hag & _). eexists. split_and!; [reflexivity|apply NoDup_elements|]. intros r. by rewrite elem_of_elements, Hag. Qed.
  Definition given (h : list fop) (d u : string) (r : cresp) : Prop :=
    match r with
    | RSockets rid l => ∃ k cb opts echo e1 e2 os, h !! k = Some (FFetch d cb rid opts true echo e1 e2 os) ∧
        ∃ j nd, k < j ∧ j < length h ∧ fc_nodes (run (take j h)) !! u = Some nd ∧ describes (other_socket (fn_ns nd)) (fn_ns nd) opts l
    | REmitted rid args => ∃ k cb ev args0 echo, h !! k = Some (FEmit d (Some cb) rid ev args0 true echo) ∧
        ∃ j, k < j ∧ h !! j = Some (FAnswer u d rid args) ∧ heard (run (take j h)) u k = [(ev, args0)] ∧
          ∀ i a, i < j → h !! i = Some (FAnswer u d rid a) → heard (run (take i h)) u k = []
    | _ => False
    end.
  Lemma given_mono h h' d u r : given h d u r → given (h ++ h') d u r.
  Proof.
    destruct r as [| |rid l|rid args]; try done.
    - intros (k & cb & opts & echo & e1 & e2 & os & H & j & nd & ? & ? & ? & ?). exists k, cb, opts, echo, e1, e2, os. split; [by apply lookup_app_l_Some|].
      exists j, nd. rewrite take_app_le, app_length by lia. split_and!; [done|lia|done|done].
    - intros (k & cb & ev & args0 & echo & H & j & ? & Hj & ? & Hi). exists k, cb, ev, args0, echo. split; [by apply lookup_app_l_Some|].
      pose proof (lookup_lt_Some _ _ _ Hj). exists j. rewrite take_app_le by lia. split_and!; [done|by apply lookup_app_l_Some|done|].
      intros i a ? Ha. rewrite lookup_app_l in Ha by lia. rewrite take_app_le by lia. by eapply Hi.
  Qed.
  Definition resp_ok (h : list fop) (x : string * fmsg) : Prop :=
    match x.2 with QResponse u r => x.1 ∈ uids ∧ u ∈ uids ∧ u ≠ x.1 ∧ given h x.1 u r | _ => True end.
  Definition ack_ok (h : list fop) (m : string) (p : string * string) (b : bool) : Prop :=
    p.1 ∈ uids ∧ p.1 ≠ m ∧ ∃ k cb ev args0 echo, h !! k = Some (FEmit p.1 (Some cb) p.2 ev args0 true echo) ∧ heard (run h) m k = [(ev, args0)] ∧
      (b = false → ∀ i a, h !! i = Some (FAnswer m p.1 p.2 a) → heard (run (take i h)) m k = []).
  Lemma origins h : ok h → (∀ x, x ∈ fc_net (run h) → resp_ok h x) ∧ (∀ m nd p b, fc_nodes (run h) !! m = Some nd → fn_acks nd !! p = Some b → ack_ok h m p b).
  Proof.
    induction h as [|op h IH] using rev_ind; intros Ho.
    { split; [by intros x ?%elem_of_nil|]. intros m nd p b H Hp. unfold frun in H. cbn in H. apply lookup_gset_to_gmap_Some in H as [_ <-]. done. }
    pose proof Ho as Ho'. apply Forall_app in Ho as [Ho Hop]. apply Forall_cons in Hop as [Hop _]. destruct (IH Ho) as [IN IA]. clear IH. split.
    - intros x Hx. rewrite frun_snoc, step_net in Hx. apply elem_of_app in Hx as [Hx|Hx].
      { apply kept_elem in Hx. apply IN in Hx. unfold resp_ok in *. destruct x.2; try done. destruct Hx as (?&?&?&?). split_and!; try done. by apply given_mono. }
      destruct op as [n cb rid opts pub echo e1 e2 os|n ack rid ev args pub echo|i t o os|n u rid args|n rid|n t o u m|n t on o|n l]; cbn [sends] in Hx; try (by apply elem_of_nil in Hx).
      + case_match; [|by apply elem_of_nil in Hx]. by apply elem_of_list_fmap in Hx as (d & -> & _).
      + case_match; [|by apply elem_of_nil in Hx]. by apply elem_of_list_fmap in Hx as (d & -> & _).
      + destruct (fc_net (run h) !! i) as [[d [u rid po|u rid pk tg|u r]]|] eqn:Ei; try (by apply elem_of_nil in Hx).
        destruct (fc_nodes (run h) !! d) as [nd|] eqn:End; [|by apply elem_of_nil in Hx]. case_decide as Hud; [by apply elem_of_nil in Hx|]. apply elem_of_list_singleton in Hx as ->.
        assert (req_ok h (d, QFetch u rid po)) as (Hd & Hu & k & cb & opts & echo & e1 & e2 & os' & Hk & -> & O1 & O2) by (apply requests_ok; [done|by eapply elem_of_list_lookup_2]).
        unfold resp_ok. cbn [fst snd]. split_and!; [done|done|congruence|]. exists k, cb, opts, echo, e1, e2, os'. split; [by apply lookup_app_l_Some|].
        exists (length h), nd. pose proof (lookup_lt_Some _ _ _ Hk). rewrite take_app, app_length. split_and!; [done|cbn; lia|done|].
        destruct (query_spec os (Some (decode_options (Some (encode_options e1 e2 opts)))) (fn_ns nd)) as [Q1 Q2]; [apply Hop|exact (run_wf _ _ _ Ho End)|].
        destruct (opts_rooms_hop e1 e2 opts O1 O2) as (R1 & R2 & _). rewrite R1, R2 in Q2. eexists. split_and!; [apply Forall2_fmap_r, Forall_Forall2_diag, Forall_true; intros id; apply remote_described; exact (run_wf _ _ _ Ho End)|done|done].
      + destruct (fc_nodes (run h) !! n) as [nd|] eqn:End; [|by apply elem_of_nil in Hx]. case_decide as Hf; [|by apply elem_of_nil in Hx]. apply elem_of_list_singleton in Hx as ->.
        destruct (IA n nd (u, rid) false End Hf) as (Hu & Hne & k & cb & ev & args0 & echo & Hk & Hh & Hfst). cbn [fst snd] in *. unfold resp_ok. cbn [fst snd].
        assert (n ∈ uids) as Hn. { by eapply node_uid. }
        split_and!; [done|done|by intros ->|]. pose proof (lookup_lt_Some _ _ _ Hk). exists k, cb, ev, args0, echo. split; [by apply lookup_app_l_Some|]. exists (length h).
        rewrite lookup_last, take_app. split_and!; [done|done|done|]. intros i a Hi Ha. rewrite lookup_app_l in Ha by lia. rewrite take_app_le by lia. by eapply Hfst.
    - intros m nd' [u rid] b Hnd' Hb. rewrite frun_snoc, step_node in Hnd'. apply fmap_Some in Hnd' as (nd & Hnd & ->). cbn in Hb.
      assert (Hm : m ∈ uids). { by eapply node_uid. }
      assert (Hkeep : fn_acks nd !! (u, rid) = Some b → (∀ a, op = FAnswer m u rid a → b = false → False) → ack_ok (h ++ [op]) m (u, rid) b).
      { intros Hb' Hno. destruct (IA m nd (u, rid) b Hnd Hb') as (Hu & Hne & k & cb & ev & args0 & echo & Hk & Hh & Hfst). cbn [fst snd] in *.
        split_and!; [done|done|]. exists k, cb, ev, args0, echo. split_and!; [by apply lookup_app_l_Some|by apply heard_stable|]. intros -> i a Ha.
        destruct (decide (i < length h)) as [Hi|Hi]; [rewrite lookup_app_l in Ha by lia; rewrite take_app_le by lia; by eapply Hfst|].
        exfalso. pose proof (lookup_lt_Some _ _ _ Ha) as Hl. rewrite app_length in Hl. cbn in Hl. assert (i = length h) as -> by lia. rewrite lookup_last in Ha. simplify_eq. by eapply Hno. }
      destruct op as [n cb rid' opts pub echo e1 e2 os|n ack rid' ev args pub echo|i t o os|n u' rid' args|n rid'|n t o u' m'|n t on o|n l]; cbn [acks_next] in Hb; try (by apply Hkeep).
      + destruct (fc_net (run h) !! i) as [[d [u' rid' po|u' [rid'|] pk tg|u' r]]|] eqn:Ei; try (by apply Hkeep). case_decide as Hc; [|by apply Hkeep]. destruct Hc as [-> Hne].
        assert (req_ok h (m, QEmit u' (Some rid') pk tg)) as (_ & Hu' & ack & rid0 & ev & args & echo & Hk & -> & Er) by (apply requests_ok; [done|by eapply elem_of_list_lookup_2]).
        destruct ack as [cb|]; [|done]. simplify_eq. cbn [server_side_event] in Hb. apply lookup_insert_Some in Hb as [[[= -> ->] <-]|[_ Hb]]; [|by apply Hkeep].
        split_and!; [done|done|]. cbn [fst snd].
        assert (heard (run h) m tg = []) as Hz.
        { pose proof (events_le h m tg Ho Hm) as Hl. assert (1 ≤ events_way (run h) m tg) as Hw.
          { unfold events_way. fold (f_ev m tg). rewrite (len_delete (f_ev m tg) _ _ _ Ei). unfold one, f_ev. cbn. rewrite decide_True by done. lia. }
          destruct (heard (run h) m tg); [done|]. cbn in Hl. lia. }
        exists tg, cb, ev, args, echo. split_and!; [by apply lookup_app_l_Some| |].
        * rewrite heard_step, Hnd, Hz. cbn [hears]. rewrite Ei, decide_True by done. cbn. unfold f_heard. cbn. by rewrite decide_True.
        * intros _ j a Ha. assert (j < length h). { destruct (decide (j < length h)); [done|]. pose proof (lookup_lt_Some _ _ _ Ha) as Hl. rewrite app_length in Hl. cbn in Hl. assert (j = length h) as -> by lia. by rewrite lookup_last in Ha. }
          rewrite take_app_le by lia. rewrite <-(take_drop j h) in Hz. by eapply heard_before.
      + case_decide as Hc.
        * destruct Hc as [-> Hf]. apply lookup_insert_Some in Hb as [[[= -> ->] <-]|[Hne Hb]].
          -- destruct (IA m nd (u, rid) false Hnd Hf) as (Hu & Hne & k & cb & ev & args0 & echo & Hk & Hh & Hfst). split_and!; [done|done|]. exists k, cb, ev, args0, echo.
             split_and!; [by apply lookup_app_l_Some|by apply heard_stable|done].
          -- apply Hkeep; [done|]. intros a [= -> ->]. done.
        * apply Hkeep; [done|]. intros a [= -> -> -> _] ->. by apply Hc.
  Qed.

  (** *** Conservation: every request that reached the network is on its way, held, answered, or the answer arrived *)
  Definition f_rq (n rid m : string) : string * fmsg → option () := λ x, match x.2 with
    | QFetch u r _ => if decide (x.1 = m ∧ u = n ∧ r = rid) then Some () else None
    | QEmit u (Some r) _ _ => if decide (x.1 = m ∧ u = n ∧ r = rid) then Some () else None
    | _ => None end.
  Definition f_rs (n rid m : string) : string * fmsg → option () := λ x, match x.2 with QResponse u r => if decide (x.1 = n ∧ u = m ∧ resp_rid r = rid) then Some () else None | _ => None end.
  Definition f_in (rid m : string) : hev → option () := λ e, match e with HResponse u r => if decide (u = m ∧ resp_rid r = rid) then Some () else None | _ => None end.
  Definition held (s : fcluster) (n rid m : string) : nat :=
    match fc_nodes s !! m with Some nd => match fn_acks nd !! (n, rid) with Some false => 1 | _ => 0 end | None => 0 end.
  Lemma held_iff s n rid m : held s n rid m = 0 ↔ ¬ callback_held s n rid m.
  Proof.
    unfold held, callback_held. destruct (fc_nodes s !! m) as [nd|] eqn:E.
    - destruct (fn_acks nd !! (n, rid)) as [[]|] eqn:Ea; (split; [intros ? (nd' & ? & Hx); simplify_eq; by rewrite Ea in Hx|intros H; try done]). exfalso. apply H. by exists nd.
    - split; [|done]. by intros _ (? & ? & _).
  Qed.
  Definition total (h : list fop) (n rid m : string) : nat :=
    requests_way (run h) n rid m + held (run h) n rid m + responses_way (run h) n rid m + length (omap (f_in rid m) (hist h n)).
  Definition called (s : fcluster) (op : fop) (n rid : string) : nat :=
    match asks op with Some (n', _, rid') => if decide (n' = n ∧ rid' = rid ∧ asking timeout s op = true) then 1 else 0 | None => 0 end.
  Lemma all_dests h n echo m (f : string → option ()) : m ∈ uids → n ≠ m → f m = Some () → (∀ d, d ≠ m → f d = None) → length (omap f (dests (run h) n echo)) = 1.
  Proof.
    intros Hm Hn H1 H2. apply elements_count with m; [|done|done]. rewrite run_dom. destruct echo; [done|]. apply elem_of_difference. split; [done|]. rewrite elem_of_singleton. congruence.
  Qed.
  Lemma sends_rq h op n rid m : m ∈ uids → n ≠ m → length (omap (f_rq n rid m) (sends timeout (run h) op)) = called (run h) op n rid.
  Proof.
    intros Hm Hnm. destruct op as [n' cb rid' opts pub echo e1 e2 os|n' ack rid' ev args pub echo|i t o os|n' u rid' args|n' rid'|n' t o u m'|n' t on o|n' l]; unfold called; cbn [sends asks]; try done.
    - destruct (asking timeout (run h) (FFetch n' cb rid' opts pub echo e1 e2 os)).
      2: { rewrite decide_False; [done|]. by intros (_ & _ & ?). }
      rewrite omap_fmap_list. unfold f_rq. cbn [fst snd]. destruct (decide (n' = n ∧ rid' = rid ∧ true = true)) as [(-> & -> & _)|Hno].
      + apply (all_dests h n echo m); [done|done|by rewrite decide_True|]. intros d Hd. rewrite decide_False; [done|]. by intros (? & _).
      + rewrite omap_none; [done|]. intros d _. rewrite decide_False; [done|]. intros (? & ? & ?). by apply Hno.
    - destruct ack as [cb|].
      2: { rewrite omap_none; [done|]. intros x Hx. case_match; [|by apply elem_of_nil in Hx]. by apply elem_of_list_fmap in Hx as (d & -> & _). }
      destruct (asking timeout (run h) (FEmit n' (Some cb) rid' ev args pub echo)).
      2: { rewrite decide_False; [done|]. by intros (_ & _ & ?). }
      rewrite omap_fmap_list. unfold f_rq. cbn [fst snd]. destruct (decide (n' = n ∧ rid' = rid ∧ true = true)) as [(-> & -> & _)|Hno].
      + apply (all_dests h n echo m); [done|done|by rewrite decide_True|]. intros d Hd. rewrite decide_False; [done|]. by intros (? & _).
      + rewrite omap_none; [done|]. intros d _. rewrite decide_False; [done|]. intros (? & ? & ?). by apply Hno.
    - destruct (fc_net (run h) !! i) as [[d [u r po|u r pk tg|u r]]|]; try done. destruct (fc_nodes (run h) !! d); [|done]. by case_decide.
    - destruct (fc_nodes (run h) !! n'); [|done]. by case_decide.
  Qed.
  Lemma total_step h op n rid m : ok (h ++ [op]) → n ∈ uids → m ∈ uids → n ≠ m → total h n rid m ≤ 1 →
    total (h ++ [op]) n rid m = total h n rid m + called (run h) op n rid.
  Proof.
    intros Ho Hn Hm Hnm Hle. apply Forall_app in Ho as [Ho _].
    pose proof (net_count (f_rq n rid m) (run h) op) as Hq. rewrite sends_rq in Hq by done. pose proof (net_count (f_rs n rid m) (run h) op) as Hs. rewrite <-frun_snoc in Hq, Hs.
    unfold total. rewrite hist_snoc, omap_app, app_length.
    change (length (omap (f_rq n rid m) (fc_net (run (h ++ [op]))))) with (requests_way (run (h ++ [op])) n rid m) in Hq. change (length (omap (f_rq n rid m) (fc_net (run h)))) with (requests_way (run h) n rid m) in Hq.
    change (length (omap (f_rs n rid m) (fc_net (run (h ++ [op]))))) with (responses_way (run (h ++ [op])) n rid m) in Hs. change (length (omap (f_rs n rid m) (fc_net (run h)))) with (responses_way (run h) n rid m) in Hs.
    destruct (run_node h m Hm) as [nd End].
    assert (Hh : held (run (h ++ [op])) n rid m = match acks_next (run h) op m (fn_acks nd) !! (n, rid) with Some false => 1 | _ => 0 end).
    { unfold held. rewrite frun_snoc, step_node, End. done. }
    assert (Hh0 : held (run h) n rid m = match fn_acks nd !! (n, rid) with Some false => 1 | _ => 0 end) by (unfold held; by rewrite End).
    rewrite Hh. clear Hh.
    assert (Hplain : acks_next (run h) op m (fn_acks nd) = fn_acks nd → length (omap (f_rs n rid m) (sends timeout (run h) op)) = 0 → length (omap (f_in rid m) (evs (run h) op n)) = 0 →
      (match op with FDeliver i _ _ _ => match fc_net (run h) !! i with Some x => one (f_rq n rid m) x + one (f_rs n rid m) x | None => 0 end | _ => 0 end = 0) →
      requests_way (run (h ++ [op])) n rid m + (match acks_next (run h) op m (fn_acks nd) !! (n, rid) with Some false => 1 | _ => 0 end) + responses_way (run (h ++ [op])) n rid m + (length (omap (f_in rid m) (hist h n)) + length (omap (f_in rid m) (evs (run h) op n)))
      = requests_way (run h) n rid m + held (run h) n rid m + responses_way (run h) n rid m + length (omap (f_in rid m) (hist h n)) + called (run h) op n rid).
    { intros E1 E2 E3 E4. rewrite E1, E3, <-Hh0. destruct op; try lia. destruct (fc_net (run h) !! i); lia. }
    unfold total in Hle.
    destruct op as [n' cb rid' opts pub echo e1 e2 os|n' ack rid' ev args pub echo|i t o os|n' u rid' args|n' rid'|n' t o u m'|n' t on o|n' l].
    - apply Hplain; [done| | |done].
      + rewrite omap_none; [done|]. intros x Hx. cbn in Hx. case_match; [|by apply elem_of_nil in Hx]. by apply elem_of_list_fmap in Hx as (d & -> & _).
      + cbn [evs]. destruct (decide (n' = n)); [|done]. by destruct (fc_nodes (run h) !! n).
    - apply Hplain; [done| | |done].
      + rewrite omap_none; [done|]. intros x Hx. cbn [sends] in Hx. case_match; [|by apply elem_of_nil in Hx]. by apply elem_of_list_fmap in Hx as (d & -> & _).
      + cbn [evs]. destruct ack; [|done]. by destruct (decide (n' = n)).
    - change (called (run h) (FDeliver i t o os) n rid) with 0 in *. destruct (fc_net (run h) !! i) as [[d x]|] eqn:Ei.
      2: { cbn [acks_next evs] in *. rewrite Ei. cbn [sends] in Hs. rewrite Ei in Hs. cbn in Hs |- *. lia. }
      pose proof (requests_ok h (d, x) Ho (elem_of_list_lookup_2 _ _ _ Ei)) as Hreq.
      cbn [acks_next evs sends] in *. rewrite Ei in *. destruct x as [u r po|u [r|] pk tg|u r].
      + destruct Hreq as (Hd & _). cbn [fst] in Hd. destruct (run_node h d Hd) as [nd' End']. rewrite End' in Hs. rewrite <-Hh0.
        assert (length (omap (f_in rid m) (if decide (d = n) then [HMessage t o u MOperation] else [])) = 0) as -> by by destruct (decide (d = n)).
        destruct (decide (u = d)) as [->|Hud].
        * assert (one (f_rq n rid m) (d, QFetch d r po) = 0) as E1. { unfold one, f_rq. cbn. rewrite decide_False; [done|]. intros (-> & -> & _). done. }
          assert (one (f_rs n rid m) (d, QFetch d r po) = 0) as E2 by done. cbn in Hs. lia.
        * assert (one (f_rq n rid m) (d, QFetch u r po) = if decide (d = m ∧ u = n ∧ r = rid) then 1 else 0) as E1 by (unfold one, f_rq; cbn [fst snd]; by destruct (decide (d = m ∧ u = n ∧ r = rid))).
          assert (one (f_rs n rid m) (d, QFetch u r po) = 0) as E2 by done.
          assert (length (omap (f_rs n rid m) [(u, QResponse d (RSockets r (remote_details (fn_ns nd') <$> fetch_sockets os (Some (decode_options (Some po))) (fn_ns nd'))))]) = if decide (d = m ∧ u = n ∧ r = rid) then 1 else 0) as E3.
          { cbn. unfold f_rs. cbn. destruct (decide (d = m ∧ u = n ∧ r = rid)) as [(-> & -> & ->)|Hno]; [by rewrite decide_True|]. rewrite decide_False; [done|]. intros (? & ? & ?). by apply Hno. }
          lia.
      + destruct Hreq as (Hd & _ & ack & rid0 & ev & args & echo & _ & -> & _). cbn [server_side_event].
        assert (length (omap (f_in rid m) (if decide (d = n) then [HMessage t o u MOperation] else [])) = 0) as -> by by destruct (decide (d = n)).
        assert (one (f_rs n rid m) (d, QEmit u (Some r) (VStr ev :: args) tg) = 0) as E2 by done. cbn [omap list_omap length] in Hs.
        assert (one (f_rq n rid m) (d, QEmit u (Some r) (VStr ev :: args) tg) = if decide (d = m ∧ u = n ∧ r = rid) then 1 else 0) as E1 by (unfold one, f_rq; cbn [fst snd]; by destruct (decide (d = m ∧ u = n ∧ r = rid))).
        rewrite E1 in Hq. destruct (decide (d = m ∧ u ≠ m)) as [[-> Hu]|Hu].
        * destruct (decide ((u, r) = (n, rid))) as [[= -> ->]|Hne].
          -- rewrite lookup_insert. rewrite decide_True in Hq by done. lia.
          -- rewrite lookup_insert_ne by done. rewrite decide_False in Hq by (intros (_ & -> & ->); done). lia.
        * rewrite decide_False in Hq; [lia|]. intros (-> & -> & _). by apply Hu.
      + assert (length (omap (f_in rid m) (if decide (d = n) then [HMessage t o u MOperation] else [])) = 0) as -> by by destruct (decide (d = n)).
        assert (one (f_rs n rid m) (d, QEmit u None pk tg) = 0) as E2 by done. assert (one (f_rq n rid m) (d, QEmit u None pk tg) = 0) as E1 by done. cbn in Hs. lia.
      + assert (one (f_rs n rid m) (d, QResponse u r) = if decide (d = n ∧ u = m ∧ resp_rid r = rid) then 1 else 0) as E2 by (unfold one, f_rs; cbn [fst snd]; by destruct (decide (d = n ∧ u = m ∧ resp_rid r = rid))).
        assert (one (f_rq n rid m) (d, QResponse u r) = 0) as E1 by done. cbn [omap list_omap length] in Hs.
        assert (length (omap (f_in rid m) (if decide (d = n) then [HResponse u r] else [])) = if decide (d = n ∧ u = m ∧ resp_rid r = rid) then 1 else 0) as ->.
        { destruct (decide (d = n)) as [->|Hd]; [|rewrite decide_False; [done|by intros (? & _)]]. cbn. unfold f_in. destruct (decide (u = m ∧ resp_rid r = rid)) as [[-> <-]|Hno]; [by rewrite decide_True|]. rewrite decide_False; [done|]. intros (_ & ? & ?). by apply Hno. }
        lia.
    - change (called (run h) (FAnswer n' u rid' args) n rid) with 0 in *. cbn [acks_next evs sends] in *. cbn [omap list_omap length].
      destruct (decide (n' = m)) as [->|Hne].
      + rewrite End in Hs. destruct (decide (fn_acks nd !! (u, rid') = Some false)) as [Ef|Ef].
        * rewrite decide_True by done.
          assert (length (omap (f_rs n rid m) [(u, QResponse m (REmitted rid' args))]) = if decide (u = n ∧ rid' = rid) then 1 else 0) as E3.
          { cbn. unfold f_rs. cbn. destruct (decide (u = n ∧ rid' = rid)) as [(-> & ->)|Hno]; [by rewrite decide_True|]. rewrite decide_False; [done|]. intros (? & ? & ?). by apply Hno. }
          destruct (decide (u = n ∧ rid' = rid)) as [[-> ->]|Hno]; [rewrite lookup_insert; rewrite Ef in Hh0; lia|]. rewrite lookup_insert_ne by (intros [= -> ->]; by apply Hno). lia.
        * rewrite decide_False by (by intros [_ ?]). cbn in Hs. lia.
      + rewrite decide_False by (by intros [? _]). destruct (fc_nodes (run h) !! n') as [nd'|]; [|cbn in Hs; lia]. destruct (decide (fn_acks nd' !! (u, rid') = Some false)); [|cbn [omap list_omap length] in Hs; lia].
        assert (length (omap (f_rs n rid m) [(u, QResponse n' (REmitted rid' args))]) = 0) as E3. { cbn. unfold f_rs. cbn. rewrite decide_False; [done|]. by intros (? & ? & ?). } lia.
    - apply Hplain; [done|done| |done]. cbn [evs]. by destruct (decide (n' = n)).
    - apply Hplain; [done|done| |done]. cbn [evs]. by destruct (decide (n' = n)).
    - apply Hplain; [done|done| |done]. cbn [evs]. by destruct (decide (n' = n)).
    - apply Hplain; [done|done| |done]. done.
  Qed.
End proofs.
