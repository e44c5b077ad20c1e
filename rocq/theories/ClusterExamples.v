(** Remaining lemmas and concrete clusters for the statements about clusters. *)
From Verif Require Import Base GoTypes Rooms Adapter AdapterSpec Cluster ClusterSpec ClusterProofs ClusterReq ClusterReqSpec ClusterReqProofs.

Lemma deliver_net csr s i os x : x ∈ cl_net (cstep csr s (CDeliver i os)) → x ∈ cl_net s.
Proof.
  unfold cstep. cbn [cstep_body cl_net]. destruct (cl_net s !! i) as [[d m]|]; [|done].
  unfold Cluster.on_message. destruct (decide (cm_uid m = d)); cbn [cl_net on_node]; intros Hx;
  (eapply elem_of_submseteq; [exact Hx|]); apply submseteq_delete.
Qed.
(** Options are either unchanged by the hop, or select the same sockets on every server. *)
Lemma opts_matches_hop {A} o1 o2 opts (s : nspace A) id : order_ok o1 → order_ok o2 →
  let opts' := Some (decode_options (Some (encode_options o1 o2 opts))) in
  matches s (opt_rooms opts') (opt_except opts') id ↔ matches s (opt_rooms opts) (opt_except opts) id.
Proof. intros H1 H2. cbv zeta. destruct (opts_rooms_hop o1 o2 opts H1 H2) as (-> & -> & _). done. Qed.

Lemma failed_broadcast csr uids h n ty ack data opts echo e1 e2 os : ¬ local_opts opts →
  cl_nodes (crun csr uids (h ++ [CCall n (GBroadcast ty ack data) opts None echo e1 e2 os])) = cl_nodes (crun csr uids h) ∧
  cl_net (crun csr uids (h ++ [CCall n (GBroadcast ty ack data) opts None echo e1 e2 os])) = cl_net (crun csr uids h).
Proof.
  intros Hl. rewrite <- local_opts_iff in Hl. apply not_true_is_false in Hl. rewrite crun_snoc.
  unfold cstep. cbn [cstep_body]. unfold call. by rewrite Hl.
Qed.

(** * Membership *)
Section membership.
  Context (self : string) (timeout : Z).
  Notation run := (hrun self timeout).
  Definition known (h : list hev) (u : string) : Prop := u ∈ dom (hb_nodes (run h)).

  Lemma count_live h : Forall hev_ok h → ∃ l, NoDup l ∧ (∀ u, u ∈ l ↔ live self timeout h u) ∧ server_count (run h) = S (length l).
  Proof.
    intros Hok. exists (elements (dom (hb_nodes (run h)))). split; [apply NoDup_elements|]. split.
    - intros u. rewrite elem_of_elements. by apply known_iff_live.
    - unfold server_count. rewrite <-size_dom. done.
  Qed.
  Lemma live_not_self h u : live self timeout h u → u ≠ self ∧ u ≠ emitter_uid.
  Proof. intros (? & ? & _). done. Qed.
  Lemma silent_dead h t on o u t0 m : last_heard h u t0 m → (timeout < t - t0)%Z → ¬ live self timeout (h ++ [HCheck t on o]) u.
  Proof.
    intros HL Ht (_ & _ & t1 & m1 & a & o1 & b & E & Hlast & _ & Hc).
    apply snoc_split in E as [(_ & _ & [=])|(b' & -> & ->)].
    assert (t0 = t1) as ->.
    { eapply (last_heard_unique _ u t0 m t1 m1); [exact HL|]. exists a, o1, b'. split; [done|]. intros t' o' m' ?. apply (Hlast t' o' m'), elem_of_app. by left. }
    specialize (Hc t on o). assert (t - t1 ≤ timeout)%Z; [|lia]. apply Hc, elem_of_app. right. by left.
  Qed.
  Lemma closed_dead h t o u : ¬ live self timeout (h ++ [HMessage t o u MClose]) u.
  Proof.
    intros (_ & _ & t1 & m1 & a & o1 & b & E & Hlast & Hm & _).
    apply snoc_split in E as [(_ & _ & [= _ _ <-])|(b' & -> & ->)]; [done|].
    destruct (Hlast t o MClose). apply elem_of_app. right. by left.
  Qed.
  Lemma regular_live a t o u m b : u ≠ self → u ≠ emitter_uid → m ≠ MClose → (∀ t' o', HMessage t' o' u MClose ∉ b) →
    (∀ b1 t' on o' b2 t0 m0, b = b1 ++ HCheck t' on o' :: b2 → last_heard (a ++ HMessage t o u m :: b1) u t0 m0 → (t' - t0 ≤ timeout)%Z) →
    live self timeout (a ++ HMessage t o u m :: b) u.
  Proof.
    intros Hs He. induction b as [|x b IH] using rev_ind; intros Hm Hcl Hgap.
    - split_and!; try done. exists t, m, a, o, []. split_and!; try done; intros ? ? ? []%elem_of_nil.
    - destruct IH as (_ & _ & t1 & m1 & a1 & o1 & b1 & E & Hlast & Hm1 & Hc); [done| | |].
      { intros t' o' ?. apply (Hcl t' o'), elem_of_app. by left. }
      { intros c1 t' on o' c2 t0 m0 -> HL. apply (Hgap c1 t' on o' (c2 ++ [x]) t0 m0); [by rewrite <-app_assoc|done]. }
      assert (Hx : (∃ t' o' m', x = HMessage t' o' u m') ∨ ∀ t' o' m', x ≠ HMessage t' o' u m').
      { destruct x as [t' o' v m'| | | | | | |]; try (by right). destruct (decide (v = u)) as [->|]; [left; eauto|right; congruence]. }
      rewrite app_comm_cons, app_assoc.
      destruct Hx as [(t' & o' & m' & ->)|Hx].
      + split_and!; try done. exists t', m', (a ++ HMessage t o u m :: b), o', []. split_and!; try done; try (intros ? ? ? []%elem_of_nil).
        intros ->. apply (Hcl t' o'), elem_of_app. right. by left.
      + split_and!; try done. exists t1, m1, a1, o1, (b1 ++ [x]). split_and!; try done.
        * by rewrite E, <-app_assoc.
        * intros t' o' m' [?|<-%elem_of_list_singleton]%elem_of_app; [by eapply Hlast|by eapply Hx].
        * intros t' on o' [?|<-%elem_of_list_singleton]%elem_of_app; [by eapply Hc|].
          apply (Hgap b t' on o' [] t1 m1); [done|]. exists a1, o1, b1. done.
  Qed.

  Lemma regular_known a t o u m b : Forall hev_ok (a ++ HMessage t o u m :: b) → u ≠ self → u ≠ emitter_uid → m ≠ MClose → (∀ t' o', HMessage t' o' u MClose ∉ b) →
    (∀ b1 t' on o' b2 t0 m0, b = b1 ++ HCheck t' on o' :: b2 → last_heard (a ++ HMessage t o u m :: b1) u t0 m0 → (t' - t0 ≤ timeout)%Z) →
    known (a ++ HMessage t o u m :: b) u.
  Proof. intros Hok ? ? ? ? ?. apply known_iff_live; [done|]. by apply regular_live. Qed.
  Lemma silent_unknown h t on o u t0 m : Forall hev_ok (h ++ [HCheck t on o]) → last_heard h u t0 m → (timeout < t - t0)%Z → ¬ known (h ++ [HCheck t on o]) u.
  Proof. intros Hok Hl Ht Hk. apply known_iff_live in Hk; [|done]. by eapply silent_dead. Qed.
  Lemma closed_unknown h t o u : Forall hev_ok (h ++ [HMessage t o u MClose]) → ¬ known (h ++ [HMessage t o u MClose]) u.
  Proof. intros Hok Hk. apply known_iff_live in Hk; [|done]. by eapply closed_dead. Qed.
  Lemma known_not_self h u : Forall hev_ok h → known h u → u ≠ self ∧ u ≠ emitter_uid.
  Proof. intros Hok Hk. apply known_iff_live in Hk; [|done]. by eapply live_not_self. Qed.

  (** * Requests, in the terms of the specification *)
  Lemma fresh_foreign h1 e h2 cb rid : req_of e = Some (cb, rid) → fresh_request h1 e h2 → ∀ x, x ∈ h1 ++ h2 → foreign rid cb x.
  Proof. intros He Hf x Hx cb' rid' Hr. by eapply Hf. Qed.
  Lemma request_alone h1 cb rid local loc h2 : let e := HFetch loc cb rid local in
    Forall hev_ok (h1 ++ e :: h2) → fresh_request h1 e h2 → loc = true ∨ (∀ u, ¬ live self timeout h1 u) →
    calls_of (run (h1 ++ e :: h2)) cb = [CalledOk local].
  Proof.
    intros e Hok Hf Hc. apply Forall_app in Hok as [Hok1 Hok2]. apply Forall_cons in Hok2 as [_ Hok2].
    pose proof (fresh_foreign h1 e h2 cb rid eq_refl Hf) as Hfor.
    destruct (before_request self timeout h1 rid cb Hok1) as (Hi & Ht & Hv). { intros x Hx. apply Hfor, elem_of_app. by left. }
    assert (Hst : isolated rid cb (run (h1 ++ [e])) ∧ tidy rid cb (run (h1 ++ [e])) ∧ view rid cb (run (h1 ++ [e])) = (None, [CalledOk local])).
    { rewrite hrun_snoc. cbn [hstep e]. unfold fetch. cbv zeta.
      assert ((loc || bool_decide (server_count (run h1) - 1 = 0)) = true) as ->.
      { apply orb_true_iff. destruct Hc as [|Hc]; [by left|right]. apply bool_decide_eq_true_2. unfold server_count.
        assert (dom (hb_nodes (run h1)) = ∅) as Hd. { apply set_eq. intros u. rewrite known_iff_live by done. split; [by intros ?%Hc|set_solver]. }
        apply dom_empty_inv_L in Hd. rewrite Hd, map_size_empty. lia. }
      split_and!; try done. rewrite hcall_view, decide_True by done. unfold view in Hv. injection Hv as -> ->. done. }
    clear Hi Ht Hv. rewrite cons_middle, app_assoc.
    induction h2 as [|x h2 IH] using rev_ind.
    { rewrite app_nil_r. destruct Hst as (_ & _ & [= _ ->]). done. }
    enough (isolated rid cb (run ((h1 ++ [e]) ++ h2 ++ [x])) ∧ tidy rid cb (run ((h1 ++ [e]) ++ h2 ++ [x])) ∧ view rid cb (run ((h1 ++ [e]) ++ h2 ++ [x])) = (None, [CalledOk local])) as (_ & _ & [= _ ->]) by done.
    clear IH. revert Hok2 Hfor. clear Hf. generalize (h2 ++ [x]). clear h2 x. intros h2.
    induction h2 as [|x h2 IH] using rev_ind; intros Hok2 Hfor; [by rewrite app_nil_r|].
    apply Forall_app in Hok2 as [Hok2 Hx]. rewrite Forall_singleton in Hx.
    destruct IH as (Hi & Ht & Hv); [done| |]. { intros y Hy. apply Hfor. set_solver. }
    rewrite app_assoc, hrun_snoc. destruct (step_view self timeout rid cb x (run ((h1 ++ [e]) ++ h2)) Hx) as (? & ? & Hv'); [apply Hfor; set_solver|done|done|].
    split_and!; try done. rewrite Hv', Hv. destruct x as [? ? ? []| ? []| | | | | |]; cbn; try done; by case_decide.
  Qed.
  Lemma request_done h1 e h2 cb rid local isf :
    e = HFetch false cb rid local ∧ isf = true ∨ e = HEmit cb rid ∧ local = [] ∧ isf = false →
    Forall hev_ok (h1 ++ e :: h2) → fresh_request h1 e h2 → (∃ u, live self timeout h1 u) →
    let all_settled a := ∀ u, live self timeout h1 u → settled self timeout rid (h1 ++ [e]) a u in
    let calls := calls_of (run (h1 ++ e :: h2)) cb in
    (∀ l, calls = [CalledOk l] ↔ ∃ a x b, h2 = a ++ x :: b ∧ ¬ all_settled a ∧ all_settled (a ++ [x]) ∧ HTimer rid ∉ a ∧ l = local ++ gathered rid (a ++ [x])) ∧
    (∀ l, calls = [CalledErr l] ↔ ∃ a b, h2 = a ++ HTimer rid :: b ∧ ¬ all_settled a ∧ HTimer rid ∉ a ∧ l = if isf then [] else gathered rid a) ∧
    (calls = [] ∨ (∃ l, calls = [CalledOk l]) ∨ (∃ l, calls = [CalledErr l])).
  Proof.
    intros He Hok Hf [v Hv] all_settled calls. apply Forall_app in Hok as [Hok1 Hok2]. apply Forall_cons in Hok2 as [Hoke Hok2].
    assert (Hr : req_of e = Some (cb, rid)) by (destruct He as [[-> _]|(-> & _)]; done).
    pose proof (fresh_foreign h1 e h2 cb rid Hr Hf) as Hfor.
    assert (Hall : ∀ a, complete self timeout h1 e rid a ↔ all_settled a).
    { intros a. unfold complete, all_settled. split; intros H u Hu; apply H; by apply known_iff_live. }
    destruct (request_outcome self timeout h1 e cb rid local isf He Hok1) with (h2 := h2) as (R1 & R2 & R3); try done.
    - intros x Hx. apply Hfor, elem_of_app. by left.
    - apply known_iff_live in Hv; [|done]. set_solver.
    - intros x Hx. apply Hfor, elem_of_app. by right.
    - fold calls in R1, R2, R3. split_and!; [| |done].
      + intros l. rewrite R1. split; intros (a & x & b & ? & H1 & H2 & ? & ?); exists a, x, b; rewrite Hall in H1 || rewrite <-Hall in H1; rewrite Hall in H2 || rewrite <-Hall in H2; done.
      + intros l. rewrite R2. split; intros (a & b & ? & H1 & ? & ?); exists a, b; rewrite Hall in H1 || rewrite <-Hall in H1; done.
  Qed.

  (** A response to a request that comes through OnMessage reaches no request. *)
  Lemma no_base_requests h : bs_reqs (hb_base (run h)) = ∅.
  Proof.
    induction h as [|e h IH] using rev_ind; [done|]. rewrite hrun_snoc. revert IH. generalize (run h). clear h.
    assert (Hsettle : ∀ rid q s, bs_reqs (hb_base (settle rid q s)) = bs_reqs (hb_base s)) by (intros; unfold settle; by case_decide).
    assert (Hone : ∀ v s i, bs_reqs (hb_base (remove_one v s i)) = bs_reqs (hb_base s)) by (intros; unfold remove_one; case_match; [apply Hsettle|done]).
    assert (Hrem : ∀ o v s, bs_reqs (hb_base (remove_node o v s)) = bs_reqs (hb_base s)).
    { intros o' v s. unfold remove_node. cbn [hset_nodes hb_base]. generalize (o' (dom (hb_custom s))). intros l. revert s.
      induction l as [|i l IH]; intros s; [done|]. cbn [foldl]. by rewrite IH, Hone. }
    assert (Hresp : ∀ r s, bs_reqs s = ∅ → bs_reqs (base_on_response r s) = ∅).
    { intros r' s Hs. destruct r'; cbn; [by case_match|by case_match|..]; by rewrite Hs, lookup_empty. }
    intros s Hs. destruct e as [t' o' v m|v r'|t' on o'|loc cb i l|cb i|i|cb i|i]; cbn [hstep].
    - unfold on_message. case_decide; [done|]. set (s1 := if decide _ then _ else _).
      assert (bs_reqs (hb_base s1) = ∅) by (unfold s1; by case_decide). destruct m; try done.
      + by rewrite Hrem.
      + unfold base_on_message. cbn [hb_base]. rewrite decide_False by done. by apply Hresp.
      + unfold base_on_message. cbn [hb_base]. by rewrite decide_False.
    - destruct r'; cbn [on_response]; cbn [hb_base]; try (by apply Hresp); case_match; by rewrite ?Hsettle.
    - unfold check. generalize (on (dom (hb_nodes s))). intros l. revert s Hs. induction l as [|w l IH]; intros s Hs; [done|].
      cbn [foldl]. apply IH. unfold check_one. case_match; [|done]. case_decide; [|done]. by rewrite Hrem.
    - unfold fetch. cbv zeta. by case_match.
    - unfold server_emit. by case_decide.
    - unfold req_timer. by case_match.
    - done.
    - done.
  Qed.
  Lemma via_message_dropped h t o u r : (∃ rid l, r = RSockets rid l ∨ r = REmitted rid l) →
    hb_base (run (h ++ [HMessage t o u (MResponse r)])) = hb_base (run h) ∧
    hb_custom (run (h ++ [HMessage t o u (MResponse r)])) = hb_custom (run h).
  Proof.
    intros (rid & l & Hr). rewrite hrun_snoc. pose proof (no_base_requests h) as Hb. revert Hb. generalize (run h). intros s Hs. cbn [hstep].
    unfold on_message. case_decide as Hu; [done|]. set (s1 := if decide _ then _ else _).
    assert (hb_base s1 = hb_base s ∧ hb_custom s1 = hb_custom s) as [E1 E2] by (unfold s1; by case_decide).
    cbn [hb_base hb_custom]. rewrite E1, E2. split; [|done]. unfold base_on_message. rewrite decide_False by done.
    destruct Hr as [->| ->]; cbn; by rewrite Hs, lookup_empty.
  Qed.
End membership.
Lemma acks_same self u t o r s : u ≠ self → (∃ rid n, r = RClientCount rid n) ∨ (∃ rid args, r = RAck rid args) →
  hb_base (on_message self t o u (MResponse r) s) = hb_base (on_response u r s) ∧ hb_custom (on_message self t o u (MResponse r) s) = hb_custom (on_response u r s).
Proof.
  intros Hu Hr. unfold on_message. rewrite decide_False by done. set (s1 := if decide _ then _ else _).
  assert (hb_base s1 = hb_base s ∧ hb_custom s1 = hb_custom s) as [E1 E2] by (unfold s1; by case_decide).
  cbn [hb_base hb_custom]. rewrite E1, E2. unfold base_on_message. rewrite decide_False by done.
  destruct Hr as [(? & ? & ->)|(? & ? & ->)]; done.
Qed.

(** * A concrete cluster *)
Definition ex_uids : gset string := {["A"; "B"; "C"]}.
Definition ex_setup : list cop :=
  [CLocal "A" (LOpen "a1"); CLocal "A" (LOpen "a2"); CLocal "B" (LOpen "b1"); CLocal "B" (LOpen "b2"); CLocal "C" (LOpen "c1");
   CLocal "A" (LJoin "a1" ["r"]); CLocal "B" (LJoin "b1" ["r"; "q"]); CLocal "B" (LJoin "b2" ["r"]); CLocal "C" (LJoin "c1" ["q"])].
Definition ex_to (loc : bool) : option bopts := Some (BOpts (Some {["r"; "q"]}) (Some {["b2"]}) (Some (Flags false false false loc false false None false))).
Definition ex_call (g : gop) (loc : bool) : cop := CCall "A" g (ex_to loc) (Some "off") true ord_rev ord_std orders_std.
Definition ex_bcast (loc : bool) : cop := ex_call (GBroadcast EVENT false [VStr "ev"]) loc.
Definition ex_rest : list cop := [CDeliver 1 orders_std; CLocal "C" (LJoin "c1" ["r"]); CDeliver 1 orders_std; CDeliver 0 orders_std].
Lemma ex_orders : orders_ok orders_std.
Proof. repeat split; intros; apply ord_std_ok. Qed.
Lemma ex_ok g loc : Forall (cop_ok ex_uids) (ex_setup ++ ex_call g loc :: ex_rest).
Proof. repeat first [apply Forall_nil_2|apply Forall_cons_2]; cbn; try done; try apply ex_orders. split_and!; [by_eval|apply ord_rev_ok|apply ord_std_ok|apply ex_orders]. Qed.

(** Three servers; [self] is "A". *)
Definition ex_hear (t : Z) (u : string) : hev := HMessage t ord_std u MHeartbeat.
Definition ex_before : list hev := [HMessage 0 ord_std "B" MInitial; ex_hear 1 "C"; ex_hear 2 "A"; ex_hear 3 "emitter"; ex_hear 3 "D"; HMessage 4 ord_std "D" MClose].
Definition ex_fetch : hev := HFetch false 7 "q" [VStr "a1"].
(** B answers, C falls silent. *)
Definition ex_after : list hev := [HResponse "B" (RSockets "q" [VStr "b1"; VStr "b2"]); ex_hear 9 "B"; HCheck 11 ord_std ord_rev; HCheck 12 ord_rev ord_std; HTimer "q"].
Lemma ex_before_ok : Forall hev_ok ex_before.
Proof. repeat first [apply Forall_nil_2|apply Forall_cons_2]; apply ord_std_ok. Qed.
Lemma ex_req_ok : Forall hev_ok (ex_before ++ ex_fetch :: ex_after).
Proof. repeat first [apply Forall_nil_2|apply Forall_cons_2]; cbn; try done; try split; first [apply ord_std_ok|apply ord_rev_ok]. Qed.
Lemma ex_fresh : fresh_request ex_before ex_fetch ex_after.
Proof.
  intros x cb rid cb' rid' Hx _ Hr. exfalso.
  assert (Forall (λ x, req_of x = None) (ex_before ++ ex_after)) as Hn by (repeat constructor).
  rewrite Forall_forall in Hn. by rewrite (Hn x Hx) in Hr.
Qed.
Lemma ex_live u : live "A" 10 ex_before u ↔ u = "B" ∨ u = "C".
Proof. rewrite <-known_iff_live by exact ex_before_ok. assert (dom (hb_nodes (hrun "A" 10 ex_before)) = {["B"; "C"]}) as -> by by_eval. set_solver. Qed.

Lemma publish_error : ∃ (uids : gset string) (h : list cop) (n : string) (op : cop) (nd : node) (id : sid) (opts : option bopts),
  Forall (cop_ok uids) (h ++ [op]) ∧ ¬ local_opts opts ∧ op = CCall n (GBroadcast EVENT false [VStr "ev"]) opts None false ord_std ord_std orders_std ∧
  cl_nodes (crun false uids h) !! n = Some nd ∧ matches nd (opt_rooms opts) (opt_except opts) id ∧
  cl_nodes (crun false uids (h ++ [op])) = cl_nodes (crun false uids h).
Proof.
  assert (Hl : ¬ local_opts None) by (intros (? & ? & [=] & _)).
  assert (∃ nd, cl_nodes (crun false ex_uids ex_setup) !! "A" = Some nd) as [nd Hnd] by (eexists; vm_compute; reflexivity).
  assert (Hli : (cl_nodes (crun false ex_uids ex_setup) !! "A") ≫= (λ nd, ns_sockets nd !! "a1") = Some (ASock "a1" true)) by (vm_compute; reflexivity).
  rewrite Hnd in Hli. cbn in Hli.
  exists ex_uids, ex_setup, "A", (CCall "A" (GBroadcast EVENT false [VStr "ev"]) None None false ord_std ord_std orders_std), nd, "a1", None.
  split; [|split; [exact Hl|split; [reflexivity|split; [exact Hnd|split]]]].
  - repeat first [apply Forall_nil_2|apply Forall_cons_2]; cbn; try done; try apply ex_orders. split_and!; [by_eval|apply ord_std_ok|apply ord_std_ok|apply ex_orders].
  - split; [by eexists|]. split; [by left|]. intros (r & Hr & _). by apply not_elem_of_empty in Hr.
  - apply failed_broadcast. exact Hl.
Qed.
