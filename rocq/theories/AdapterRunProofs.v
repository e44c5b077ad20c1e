(** Every namespace that a history can produce is well-formed. *)
From Verif Require Import Base GoTypes Rooms RoomsSpec RoomsProofs Adapter AdapterSpec AdapterProofs AdapterRun AdapterRunSpec.

Lemma ns_step_wf {P} rep (s : nspace P) op : nsop_ok op → ns_wf s → ns_wf (ns_step rep s op).
Proof.
  intros Ho Hwf. pose proof Hwf as (W1&W2&W3). pose proof Hwf as Hwf'. apply ns_wf_alt in Hwf' as (X1&X2&X3).
  destruct op as [id|id rs|id r|id o|p o opts|o opts rs|o opts rs|o opts]; cbn [ns_step].
  - destruct (ns_sockets s !! id) as [a|] eqn:E; [done|]. set (s1 := NSpace _ _ _ _).
    destruct (sock_join_fields [id] (ASock id true) s1 eq_refl) as (F1&F2&F3&F4&F5).
    apply ns_wf_alt. split_and!; [by apply F4| |].
    + intros j b. rewrite F1. unfold s1. cbn [ns_sockets]. intros [[<- <-]|[? ?]]%lookup_insert_Some; [done|by apply X2].
    + intros j. unfold listed. rewrite F1, F5. unfold s1. cbn [ns_sockets ns_reg as_id]. intros [b [[<- _]|[_ Hb]]%lookup_insert_Some]; [by right|left]. apply X3. by exists b.
  - destruct (ns_sockets s !! id) as [a|] eqn:E; [|done]. destruct (X2 _ _ E) as [Ea Ec]. destruct (sock_join_fields rs a s Ec) as (F1&F2&F3&F4&F5).
    apply ns_wf_alt. split_and!; [by apply F4|rewrite F1; done|]. intros j. unfold listed. rewrite F1, F5. left. by apply X3.
  - destruct (ns_sockets s !! id) as [a|] eqn:E; [|done]. destruct (sock_leave_list_fields rep [r] a s) as (F1&F2&F3&F4&F5). cbn [sock_leave_list foldl] in *.
    apply ns_wf_alt. split_and!; [by apply F4|rewrite F1; done|]. intros j. unfold listed. rewrite F1, F5. by apply X3.
  - destruct (ns_sockets s !! id) as [a|] eqn:E; [|done]. destruct (X2 _ _ E) as [Ea Ec].
    destruct (sock_close_fields rep (λ _, o) a s) as (F1&F2&F3&F4&F5); [done|done|].
    apply ns_wf_alt. split_and!; [done| |].
    + intros j b. rewrite F1. intros [_ Hb]%lookup_delete_Some. by apply X2.
    + intros j. unfold listed. rewrite F1, F5. intros [b [Hne Hb]%lookup_delete_Some]. split; [apply X3; by exists b|congruence].
  - destruct (broadcast_spec p o opts s Ho Hwf) as (l&_&_&->). exact Hwf.
  - by destruct (add_sockets_spec o opts rs s Ho Hwf) as (_&_&_&?).
  - by destruct (del_sockets_spec rep o opts rs s Ho Hwf) as (_&_&_&?).
  - by destruct (disconnect_sockets_spec rep o opts s Ho Hwf) as (_&_&_&?).
Qed.
Lemma ns_run_wf {P} rep (h : list (nsop P)) : Forall nsop_ok h → ns_wf (ns_run rep h).
Proof.
  induction h as [|op h IH] using rev_ind; intros Hok.
  - apply ns_wf_alt. split_and!; [apply empty_inv|done|]. intros id [a Ha]. done.
  - apply Forall_app in Hok as [Hok Hop]. unfold ns_run. rewrite foldl_app. cbn. apply ns_step_wf; [by inversion Hop|]. by apply IH.
Qed.

(** The tables agree with the history. *)
Record agree {P} (s : nspace P) (v : view) : Prop := {
  ag_wf : ns_wf s;
  ag_listed : ∀ id, listed s id ↔ v_listed v id;
  ag_in : ∀ id r, in_room s id r ↔ v_in v id r;
  ag_only : ∀ id r, in_room s id r → listed s id }.
Lemma agree_matches {P} (s : nspace P) v opts id : agree s v → matches s (opt_rooms opts) (opt_except opts) id ↔ v_matches v opts id.
Proof.
  intros [_ Hl Hi _]. unfold matches, v_matches. rewrite Hl. assert (E : ∀ X : gset room, (∃ r, r ∈ X ∧ in_room s id r) ↔ ∃ r, r ∈ X ∧ v_in v id r).
  { intros X. split; intros (r & Hr & H); exists r; split; try done; by apply Hi. }
  by rewrite !E.
Qed.
Lemma agree_step {P} rep (s : nspace P) v op : nsop_ok op → agree s v → agree (ns_step rep s op) (v_step v op).
Proof.
  intros Ho Hag. pose proof (agree_matches s v) as Hm. pose proof (ns_step_wf rep s op Ho (ag_wf _ _ Hag)) as Hwf'.
  pose proof Hag as [Hwf Hl Hi Hon]. pose proof Hwf as Hx. apply ns_wf_alt in Hx as (X1&X2&X3).
  destruct op as [id|id rs|id r0|id o|p o opts|o opts rs|o opts rs|o opts]; cbn [ns_step v_step] in *.
  - destruct (ns_sockets s !! id) as [a|] eqn:E.
    { assert (Hid : listed s id) by by exists a. split; cbn; try done.
      - intros j. rewrite <- Hl. split; [by left|]. intros [?| ->]; done.
      - intros j r. rewrite <- Hi. split; [by left|]. intros [?|(Hn & _)]; [done|]. by rewrite <- Hl in Hn. }
    assert (Hid : ¬ listed s id) by (intros [? ?]; congruence).
    unfold sock_join in *. cbn [as_can_join as_id] in *. unfold upd_reg in *. destruct (add_all id (remove_dups [id]) _) as [g l] eqn:Eg. cbn [ns_reg ns_sockets ns_events ns_written] in *.
    assert (Hg : ∀ j r, j ∈ members_of g r ↔ j ∈ members_of (ns_reg s) r ∨ j = id ∧ r = id).
    { intros j r. replace g with (add_all id (remove_dups [id]) (ns_reg s)).1 by by rewrite Eg. rewrite add_all_members. rewrite elem_of_remove_dups, elem_of_list_singleton. done. }
    assert (Hs : ∀ j, is_Some (<[id := ASock id true]> (ns_sockets s) !! j) ↔ listed s j ∨ j = id).
    { intros j. rewrite lookup_insert_is_Some'. unfold listed. split; intros [?|?]; auto. }
    split; unfold listed, in_room in *; cbn [ns_reg ns_sockets v_listed v_in] in *; try done.
    + intros j. rewrite Hs. by rewrite Hl.
    + intros j r. rewrite Hg, Hi. rewrite Hl in Hid. split; [intros [?|[-> ->]]; [by left|by right]|intros [?|(_&->&->)]; [by left|by right]].
    + intros j r [Hj|[-> _]]%Hg; apply Hs; [left; by eapply Hon|by right].
  - destruct (ns_sockets s !! id) as [a|] eqn:E.
    2: { assert (Hid : ¬ listed s id) by (intros [? ?]; congruence). rewrite Hl in Hid. split; cbn; try done. intros j r. rewrite <- Hi. split; [by left|]. intros [?|(? & _)]; done. }
    destruct (X2 _ _ E) as [Ea Ec]. assert (Hid : listed s id) by by exists a.
    unfold sock_join in *. rewrite Ec in *. unfold upd_reg in *. destruct (add_all (as_id a) (remove_dups rs) _) as [g l] eqn:Eg. cbn [ns_reg ns_sockets ns_events ns_written] in *.
    assert (Hg : ∀ j r, j ∈ members_of g r ↔ j ∈ members_of (ns_reg s) r ∨ j = id ∧ r ∈ rs).
    { intros j r. replace g with (add_all (as_id a) (remove_dups rs) (ns_reg s)).1 by by rewrite Eg. rewrite add_all_members, elem_of_remove_dups. by rewrite Ea. }
    split; unfold listed, in_room in *; cbn [ns_reg ns_sockets v_listed v_in] in *; try done.
    + intros j r. rewrite Hg, Hi. rewrite Hl in Hid. tauto.
    + intros j r [Hj|[-> _]]%Hg; [by eapply Hon|done].
  - assert (Hskip : ¬ listed s id → ∀ j r, v_in v j r ↔ v_in v j r ∧ ¬ (j = id ∧ r = r0)).
    { intros Hn j r. split; [|tauto]. intros Hj. split; [done|]. intros [-> _]. apply Hn. eapply Hon. by apply Hi. }
    destruct (ns_sockets s !! id) as [a|] eqn:E.
    2: { assert (Hid : ¬ listed s id) by (intros [? ?]; congruence). split; cbn; try done. intros j r. rewrite Hi. by apply Hskip. }
    destruct (X2 _ _ E) as [Ea Ec].
    unfold sock_leave in *. unfold upd_reg in *. destruct (del rep (as_id a) r0 _) as [g l] eqn:Eg. cbn [ns_reg ns_sockets ns_events ns_written] in *.
    assert (Hg : ∀ j r, j ∈ members_of g r ↔ j ∈ members_of (ns_reg s) r ∧ ¬ (j = id ∧ r = r0)).
    { intros j r. replace g with (del rep (as_id a) r0 (ns_reg s)).1 by by rewrite Eg. rewrite del_members, Ea. tauto. }
    split; unfold listed, in_room in *; cbn [ns_reg ns_sockets v_listed v_in] in *; try done.
    + intros j r. by rewrite Hg, Hi.
    + intros j r [Hj _]%Hg. by eapply Hon.
  - destruct (ns_sockets s !! id) as [a|] eqn:E.
    2: { assert (Hid : ¬ listed s id) by (intros [? ?]; congruence). split; cbn; try done.
         - intros j. rewrite Hl. split; [|tauto]. intros Hj. split; [done|]. intros ->. by rewrite Hl in Hid.
         - intros j r. rewrite Hi. split; [|tauto]. intros Hj. split; [done|]. intros ->. apply Hid. eapply Hon. by apply Hi. }
    destruct (X2 _ _ E) as [Ea Ec]. unfold sock_close in *. unfold upd_reg in *. rewrite Ea in *. destruct (del_all rep o id _) as [g l] eqn:Eg. cbn [ns_reg ns_sockets ns_events ns_written] in *.
    assert (Hg : ∀ j r, j ∈ members_of g r ↔ j ∈ members_of (ns_reg s) r ∧ j ≠ id).
    { intros j r. replace g with (del_all rep o id (ns_reg s)).1 by by rewrite Eg. rewrite del_all_members by done. tauto. }
    assert (Hs : ∀ j, is_Some (delete id (ns_sockets s) !! j) ↔ listed s j ∧ j ≠ id).
    { intros j. rewrite lookup_delete_is_Some. unfold listed. split; intros [? ?]; auto. }
    split; unfold listed, in_room in *; cbn [ns_reg ns_sockets v_listed v_in] in *; try done.
    + intros j. by rewrite Hs, Hl.
    + intros j r. by rewrite Hg, Hi.
    + intros j r [Hj Hne]%Hg. apply Hs. split; [by eapply Hon|done].
  - destruct (broadcast_spec p o opts s Ho Hwf) as (l&_&_&E). rewrite E in *. split; try done.
  - destruct (add_sockets_spec o opts rs s Ho Hwf) as (E1&E2&_&_). unfold listed in *. split; unfold listed; rewrite ?E2; cbn [v_listed v_in]; try done.
    + intros j r. by rewrite E1, Hi, Hm.
    + intros j r [Hj|[Hj _]]%E1; [by eapply Hon|]. apply Hj.
  - destruct (del_sockets_spec rep o opts rs s Ho Hwf) as (E1&E2&_&_). unfold listed in *. split; unfold listed; rewrite ?E2; cbn [v_listed v_in]; try done.
    + intros j r. by rewrite E1, Hi, Hm.
    + intros j r [Hj _]%E1. by eapply Hon.
  - destruct (disconnect_sockets_spec rep o opts s Ho Hwf) as (E1&E2&_&_).
    assert (Hs : ∀ j, is_Some (ns_sockets (disconnect_sockets rep o opts s) !! j) ↔ listed s j ∧ ¬ matches s (opt_rooms opts) (opt_except opts) j).
    { intros j. destruct (E2 j) as [G1 G2]. split.
      - intros Hj. assert (Hn : ¬ matches s (opt_rooms opts) (opt_except opts) j). { intros Hj'. rewrite (G1 Hj') in Hj. by destruct Hj. }
        split; [|done]. by rewrite (G2 Hn) in Hj.
      - intros [Hj Hn]. by rewrite (G2 Hn). }
    split; unfold listed in *; cbn [v_listed v_in]; try done.
    + intros j. by rewrite Hs, Hl, Hm.
    + intros j r. by rewrite E1, Hi, Hm.
    + intros j r [Hj Hn]%E1. apply Hs. split; [by eapply Hon|done].
Qed.
Lemma ns_run_snoc {P} rep (h : list (nsop P)) op : ns_run rep (h ++ [op]) = ns_step rep (ns_run rep h) op.
Proof. unfold ns_run. by rewrite foldl_app. Qed.
Lemma view_snoc {P} (h : list (nsop P)) op : view_of (h ++ [op]) = v_step (view_of h) op.
Proof. unfold view_of. by rewrite foldl_app. Qed.
Lemma agree_run {P} rep (h : list (nsop P)) : Forall nsop_ok h → agree (ns_run rep h) (view_of h).
Proof.
  induction h as [|op h IH] using rev_ind; intros Hok.
  - split; [by apply (ns_run_wf rep (P := P) [])|..]; cbn.
    + intros id. split; [|done]. by intros [? ?].
    + intros id r. split; [|done]. unfold in_room, members_of. cbn. rewrite lookup_empty. set_solver.
    + intros id r. unfold in_room, members_of. cbn. rewrite lookup_empty. set_solver.
  - apply Forall_app in Hok as [Hok Hop]. rewrite ns_run_snoc, view_snoc. apply agree_step; [by inversion Hop|]. by apply IH.
Qed.

Lemma filter_targets {P} (l : list sid) (p : P) id : NoDup l →
  (filter (λ w, w.1 = id) ((λ i, (i, p)) <$> l)).*2 = if decide (id ∈ l) then [p] else [].
Proof.
  induction l as [|x l IH]; intros Hnd; [done|]. inversion Hnd as [|? ? Hx Hl]; subst. cbn [fmap list_fmap]. destruct (decide (x = id)) as [->|Hne].
  - rewrite filter_cons_True by done. cbn. rewrite IH by done. rewrite decide_False by done. by rewrite decide_True by (by left).
  - rewrite filter_cons_False by done. rewrite IH by done. destruct (decide (id ∈ l)); [rewrite decide_True by (by right)|rewrite decide_False]; try done.
    intros [?|?]%elem_of_cons; congruence.
Qed.
Lemma written_same {P} rep (s : nspace P) op : nsop_ok op → ns_wf s → (∀ p o opts, op ≠ NBroadcast p o opts) → ns_written (ns_step rep s op) = ns_written s.
Proof.
  intros Ho Hwf Hne. destruct op as [id|id rs|id r0|id o|p o opts|o opts rs|o opts rs|o opts]; cbn [ns_step].
  - destruct (ns_sockets s !! id); [done|]. set (s1 := NSpace _ _ _ _). by destruct (sock_join_fields [id] (ASock id true) s1 eq_refl) as (_&F2&_).
  - destruct (ns_sockets s !! id) as [a|]; [|done]. unfold sock_join, upd_reg. destruct (as_can_join a); [|done]. by destruct (add_all _ _ _).
  - destruct (ns_sockets s !! id) as [a|]; [|done]. unfold sock_leave, upd_reg. by destruct (del _ _ _ _).
  - destruct (ns_sockets s !! id) as [a|]; [|done]. unfold sock_close, upd_reg. by destruct (del_all _ _ _ _).
  - by destruct (Hne p o opts).
  - by destruct (add_sockets_spec o opts rs s Ho Hwf) as (_&_&?&_).
  - by destruct (del_sockets_spec rep o opts rs s Ho Hwf) as (_&_&?&_).
  - by destruct (disconnect_sockets_spec rep o opts s Ho Hwf) as (_&_&?&_).
Qed.
Lemma received_run {P} rep (h : list (nsop P)) id : Forall nsop_ok h → received h id (packets_of id (ns_run rep h)).
Proof.
  induction h as [|op h IH] using rev_ind; intros Hok; [apply rec_nil|]. apply Forall_app in Hok as [Hok Hop]. inversion Hop as [|? ? Ho _]; subst.
  specialize (IH Hok). pose proof (agree_run rep h Hok) as Hag. rewrite ns_run_snoc. unfold packets_of in *.
  destruct op as [| | | |p o opts| | |]; try (rewrite written_same; [by apply rec_other|done|apply Hag|done]).
  cbn [ns_step]. destruct (broadcast_spec p o opts (ns_run rep h) Ho (ag_wf _ _ Hag)) as (l&Hnd&Hl&E). rewrite E. cbn [ns_written].
  rewrite filter_app, fmap_app, filter_targets by done. destruct (decide (id ∈ l)) as [Hin|Hin].
  - apply rec_hit; [done|]. apply (agree_matches _ _ opts id Hag). by apply Hl.
  - rewrite app_nil_r. apply rec_miss; [done|]. rewrite <- (agree_matches _ _ opts id Hag). by rewrite <- Hl.
Qed.
Lemma received_unique {P} (h : list (nsop P)) id l1 l2 : received h id l1 → received h id l2 → l1 = l2.
Proof.
  intros H1. revert l2. induction H1 as [id|h id l p o opts H IH Hm|h id l p o opts H IH Hm|h id l op H IH Hne]; intros l2 H2.
  - remember [] as h eqn:Eh. destruct H2; [done|..]; by destruct h.
  - remember (h ++ [NBroadcast p o opts]) as h' eqn:Eh. destruct H2 as [|h2 ? l2 p2 o2 opts2 H2 Hm2|h2 ? l2 p2 o2 opts2 H2 Hm2|h2 ? l2 op2 H2 Hne2]; [by destruct h|..];
      apply app_inj_tail in Eh as [-> E]; inversion E; subst; [|done|by destruct (Hne2 p o opts)]. f_equal. by apply IH.
  - remember (h ++ [NBroadcast p o opts]) as h' eqn:Eh. destruct H2 as [|h2 ? l2 p2 o2 opts2 H2 Hm2|h2 ? l2 p2 o2 opts2 H2 Hm2|h2 ? l2 op2 H2 Hne2]; [by destruct h|..];
      apply app_inj_tail in Eh as [-> E]; inversion E; subst; [done| |by destruct (Hne2 p o opts)]. by apply IH.
  - remember (h ++ [op]) as h' eqn:Eh. destruct H2 as [|h2 ? l2 p2 o2 opts2 H2 Hm2|h2 ? l2 p2 o2 opts2 H2 Hm2|h2 ? l2 op2 H2 Hne2]; [by destruct h|..];
      apply app_inj_tail in Eh as [-> E]; subst; [by destruct (Hne p2 o2 opts2)|by destruct (Hne p2 o2 opts2)|]. by apply IH.
Qed.
Lemma ns_histories {P} rep (h : list (nsop P)) : Forall nsop_ok h →
  (∀ id, listed (ns_run rep h) id ↔ v_listed (view_of h) id) ∧ (∀ id r, in_room (ns_run rep h) id r ↔ v_in (view_of h) id r) ∧
  ∀ id l, received h id l ↔ packets_of id (ns_run rep h) = l.
Proof.
  intros Hok. split_and!; [apply ag_listed, agree_run, Hok|apply ag_in, agree_run, Hok|]. intros id l. pose proof (received_run rep h id Hok) as Hr. split.
  - intros H. by eapply received_unique.
  - by intros <-.
Qed.
