(** Proofs about membership and requests. *)
From Verif Require Import Base GoTypes ClusterReq ClusterReqSpec.

(** * Membership *)
#[global] Instance is_close_dec (m : cmessage) : Decision (m = MClose).
Proof. destruct m; (by left) || (by right). Defined.
Lemma settle_nodes rid q s : hb_nodes (settle rid q s) = hb_nodes s.
Proof. unfold settle. by case_decide. Qed.
Lemma remove_one_nodes u s r : hb_nodes (remove_one u s r) = hb_nodes s.
Proof. unfold remove_one. case_match; [apply settle_nodes|done]. Qed.
Lemma remove_fold_nodes u l s : hb_nodes (foldl (remove_one u) s l) = hb_nodes s.
Proof. revert s. induction l as [|r l IH]; intros s; [done|]. cbn [foldl]. rewrite IH. apply remove_one_nodes. Qed.
Lemma remove_node_nodes o u s : hb_nodes (remove_node o u s) = delete u (hb_nodes s).
Proof. unfold remove_node. cbn [hset_nodes hb_nodes]. by rewrite remove_fold_nodes. Qed.

Section proofs.
  Context (self : string) (timeout : Z).
  Notation hrun := (hrun self timeout).
  Notation hstep := (hstep self timeout).

  Lemma hrun_snoc h e : hrun (h ++ [e]) = hstep (hrun h) e.
  Proof. unfold ClusterReq.hrun. by rewrite foldl_app. Qed.

  Lemma check_fold_nodes t o l s u :
    hb_nodes (foldl (check_one timeout t o) s l) !! u =
      match hb_nodes s !! u with
      | Some t0 => if decide (u ∈ l ∧ (timeout < t - t0)%Z) then None else Some t0
      | None => None
      end.
  Proof.
    revert s. induction l as [|v l IH]; intros s; cbn [foldl].
    { destruct (hb_nodes s !! u); [|done]. destruct (decide _) as [[[]%elem_of_nil _]|]; done. }
    rewrite IH. unfold check_one. destruct (decide (v = u)) as [->|Hne].
    - destruct (hb_nodes s !! u) as [t0|] eqn:E; [|by rewrite E].
      destruct (decide (timeout < t - t0)%Z) as [Hs|Hs].
      + rewrite remove_node_nodes, lookup_delete.
        destruct (decide (u ∈ u :: l ∧ _)) as [|n]; [done|]. destruct n. split; [left|done].
      + rewrite E. destruct (decide (u ∈ l ∧ _)) as [[]|]; [done|]. destruct (decide (u ∈ u :: l ∧ _)) as [[]|]; done.
    - assert (E : hb_nodes (match hb_nodes s !! v with
          | Some seen => if decide (timeout < t - seen)%Z then remove_node o v s else s | None => s end) !! u = hb_nodes s !! u).
      { destruct (hb_nodes s !! v) as [t1|]; [|done]. destruct (decide _); [|done].
        by rewrite remove_node_nodes, lookup_delete_ne. }
      rewrite E. destruct (hb_nodes s !! u) as [t0|]; [|done].
      destruct (decide (u ∈ l ∧ _)) as [[]|n], (decide (u ∈ v :: l ∧ _)) as [[Hin ?]|n']; try done.
      + destruct n'. split; [by right|done].
      + apply elem_of_cons in Hin as [->|]; [done|]. destruct n; done.
  Qed.
  Lemma check_nodes t on o s u : order_ok on →
    hb_nodes (check timeout t on o s) !! u =
      match hb_nodes s !! u with
      | Some t0 => if decide (timeout < t - t0)%Z then None else Some t0
      | None => None
      end.
  Proof.
    intros Ho. unfold check. rewrite check_fold_nodes. destruct (hb_nodes s !! u) as [t0|] eqn:E; [|done].
    assert (u ∈ on (dom (hb_nodes s))). { rewrite order_elem by done. apply elem_of_dom. eauto. }
    destruct (decide (u ∈ _ ∧ _)) as [[]|n], (decide (timeout < t - t0)%Z); try done. destruct n; done.
  Qed.
  Lemma message_nodes t o v m s u :
    hb_nodes (on_message self t o v m s) !! u =
      if decide (u = v ∧ v ≠ self ∧ (v ≠ emitter_uid ∨ m = MClose))
      then match m with MClose => None | _ => Some t end else hb_nodes s !! u.
  Proof.
    unfold on_message. destruct (decide (v = self)) as [->|Hs].
    { destruct (decide (u = self ∧ _)) as [(_ & [] & _)|]; done. }
    set (s1 := if decide (v = emitter_uid) then s else _).
    assert (Hn : hb_nodes s1 = if decide (v = emitter_uid) then hb_nodes s else <[v := t]> (hb_nodes s)) by (unfold s1; by case_decide).
    transitivity ((match m with MClose => delete v (hb_nodes s1) | _ => hb_nodes s1 end) !! u).
    { destruct m; try done. by rewrite remove_node_nodes. }
    rewrite Hn. clear s1 Hn. destruct (decide (u = v)) as [->|Hne].
    - destruct (decide (v = v ∧ _)) as [(_ & _ & Hd)|n].
      + destruct Hd as [Hd| ->]; [|by rewrite lookup_delete]. rewrite decide_False by done.
        destruct m; by rewrite ?lookup_delete, ?lookup_insert.
      + destruct (decide (v = emitter_uid)); [|destruct n; auto]. destruct m; try done. destruct n; auto.
    - rewrite (decide_False (P := u = v ∧ _)) by (by intros (-> & _)).
      destruct (decide (v = emitter_uid)), m; by rewrite ?lookup_delete_ne, ?lookup_insert_ne by done.
  Qed.
  Lemma step_nodes_frame e s : (∀ t o v m, e ≠ HMessage t o v m) → (∀ t on o, e ≠ HCheck t on o) → hb_nodes (hstep s e) = hb_nodes s.
  Proof.
    intros H1 H2. destruct e as [t o v m|v r|t on o|loc cb rid l|cb rid|rid|cb rid|rid]; cbn [ClusterReq.hstep].
    - by destruct (H1 t o v m).
    - unfold on_response. destruct r; try done; case_match; try done; apply settle_nodes.
    - by destruct (H2 t on o).
    - unfold fetch. cbv zeta. by case_match.
    - unfold server_emit. by case_decide.
    - unfold req_timer. by case_match.
    - done.
    - done.
  Qed.

  Definition heard_live (h : list hev) (u : string) (t : Z) : Prop :=
    u ≠ self ∧ u ≠ emitter_uid ∧ ∃ m a o b, h = a ++ HMessage t o u m :: b ∧ (∀ t' o' m', HMessage t' o' u m' ∉ b) ∧ m ≠ MClose ∧
      ∀ t' on o', HCheck t' on o' ∈ b → (t' - t ≤ timeout)%Z.
  Lemma snoc_split {A} (h : list A) e a x b : h ++ [e] = a ++ x :: b → (b = [] ∧ h = a ∧ e = x) ∨ ∃ b', b = b' ++ [e] ∧ h = a ++ x :: b'.
  Proof.
    destruct b as [|y b _] using rev_ind; intros E.
    - apply app_inj_tail in E as [-> ->]. by left.
    - right. exists b. rewrite app_comm_cons, app_assoc in E. apply app_inj_tail in E as [-> ->]. done.
  Qed.
  Lemma nodes_spec h u t : Forall hev_ok h → hb_nodes (hrun h) !! u = Some t ↔ heard_live h u t.
  Proof.
    revert t. induction h as [|e h IH] using rev_ind; intros t Hok.
    { split; [done|]. intros (_ & _ & m & a & o & b & E & _). by destruct a. }
    apply Forall_app in Hok as [Hok He]. rewrite Forall_singleton in He. rewrite hrun_snoc.
    assert (Hframe : (∀ t o m, e ≠ HMessage t o u m) → (∀ t on o, e ≠ HCheck t on o) → heard_live (h ++ [e]) u t ↔ heard_live h u t).
    { intros H1 H2. unfold heard_live. split; intros (? & ? & m & a & o & b & E & Hl & Hm & Hc); split_and!; try done.
      - apply snoc_split in E as [(-> & -> & ->)|(b' & -> & ->)]; [by destruct (H1 t o m)|].
        exists m, a, o, b'. split_and!; try done; intros t' o' m' Hin.
        + by apply (Hl t' o' m'), elem_of_app; left.
        + by apply (Hc t' o' m'), elem_of_app; left.
      - exists m, a, o, (b ++ [e]). split_and!; try done.
        + by rewrite E, <-app_assoc.
        + intros t' o' m' [?|?%elem_of_list_singleton]%elem_of_app; [by eapply Hl|]. by destruct (H1 t' o' m').
        + intros t' o' m' [?|?%elem_of_list_singleton]%elem_of_app; [by eapply Hc|]. by destruct (H2 t' o' m'). }
    destruct e as [t1 o v m|v r|t1 on o|loc cb rid l|cb rid|rid|cb rid|rid].
    2, 4, 5, 6, 7, 8: (rewrite step_nodes_frame by done; rewrite Hframe by done; by apply IH).
    - cbn [ClusterReq.hstep]. rewrite message_nodes. destruct (decide (u = v)) as [->|Hne].
      + destruct (decide (v = v ∧ _)) as [(_ & Hs & Hd)|n].
        * split.
          -- intros E. destruct (decide (m = MClose)) as [->|Hm]; [done|]. destruct Hd as [Hd|]; [|done].
             assert (t1 = t) as -> by (destruct m; congruence).
             split_and!; [done..|]. exists m, h, o, []. split_and!; try done; intros ??? []%elem_of_nil.
          -- intros (_ & _ & m' & a & o' & b & E & Hl & Hm & Hc).
             apply snoc_split in E as [(-> & -> & [= -> -> ->])|(b' & -> & ->)].
             ++ by destruct m'.
             ++ destruct (Hl t1 o m). apply elem_of_app. right. by left.
        * assert (v = self ∨ v = emitter_uid) as Hv.
          { destruct (decide (v = self)); [by left|]. destruct (decide (v = emitter_uid)); [by right|]. destruct n. auto. }
          rewrite IH by done. split; intros (? & ? & _); by destruct Hv.
      + destruct (decide (u = v ∧ _)) as [(-> & _)|_]; [done|]. rewrite IH by done. symmetry. apply Hframe; [|done].
        intros ? ? ? [=]; congruence.
    - destruct He as [Hon _]. cbn [ClusterReq.hstep]. rewrite check_nodes by done.
      split.
      + destruct (hb_nodes (hrun h) !! u) as [t0|] eqn:E; [|done]. destruct (decide _); [done|]. intros [= ->].
        specialize (IH t Hok). rewrite <-E in IH. destruct (proj1 IH eq_refl) as (? & ? & m & a & o' & b & -> & Hl & Hm & Hc). split_and!; try done.
        exists m, a, o', (b ++ [HCheck t1 on o]). split_and!; try done.
        * by rewrite <-app_assoc.
        * intros t' o'' m' [?|?%elem_of_list_singleton]%elem_of_app; [by eapply Hl|done].
        * intros t' on' o'' [?|[= -> -> ->]%elem_of_list_singleton]%elem_of_app; [by eapply Hc|lia].
      + intros (? & ? & m & a & o' & b & E & Hl & Hm & Hc).
        apply snoc_split in E as [(-> & -> & [=])|(b' & -> & ->)].
        assert (hb_nodes (hrun (a ++ HMessage t o' u m :: b')) !! u = Some t) as ->.
        { apply IH; [done|]. split_and!; try done. exists m, a, o', b'. split_and!; try done; intros t' ? ? Hin.
          - eapply Hl, elem_of_app. by left.
          - eapply Hc, elem_of_app. by left. }
        destruct (decide _); [|done]. assert (t1 - t ≤ timeout)%Z; [|lia]. apply (Hc t1 on o), elem_of_app. right. by left.
  Qed.
  Lemma known_iff_live h u : Forall hev_ok h → u ∈ dom (hb_nodes (hrun h)) ↔ live self timeout h u.
  Proof.
    intros Hok. rewrite elem_of_dom. split.
    - intros [t (? & ? & m & a & o & b & Hx)%nodes_spec]; [|done]. split_and!; try done. by exists t, m, a, o, b.
    - intros (? & ? & t & m & a & o & b & Hx). exists t. apply nodes_spec; [done|]. split_and!; try done. by exists m, a, o, b.
  Qed.
  Lemma last_heard_unique h u t m t' m' : last_heard h u t m → last_heard h u t' m' → t = t'.
  Proof.
    intros (a & o & b & -> & Hb) (a' & o' & b' & E & Hb').
    destruct (app_eq_inv _ _ _ _ E) as [(k & -> & E')|(k & -> & E')]; destruct k as [|y k]; cbn in E'.
    - by injection E'.
    - injection E' as <- ->. destruct (Hb' t o m). apply elem_of_app. right. by left.
    - by injection E'.
    - injection E' as <- ->. destruct (Hb t' o' m'). apply elem_of_app. right. by left.
  Qed.

  (** * Requests *)
  Definition isolated (rid : string) (cb : nat) (s : hstate) : Prop :=
    (∀ r q, hb_custom s !! r = Some q → r ≠ rid → cq_cb q ≠ cb) ∧ (∀ r c, bs_acks (hb_base s) !! r = Some c → c ≠ cb) ∧ bs_reqs (hb_base s) = ∅.
  Definition view (rid : string) (cb : nat) (s : hstate) : option creq * list ccall := (hb_custom s !! rid, calls_of s cb).
  Definition shrink (X : gset string) (v : option creq * list ccall) : option creq * list ccall :=
    match v.1 with
    | Some q => if decide (cq_missing q ∖ X = ∅) then (None, v.2 ++ [CalledOk (cq_resp q)])
                else (Some (CReq (cq_cb q) (cq_fetch q) (cq_missing q ∖ X) (cq_resp q)), v.2)
    | None => v
    end.
  Definition tidy (rid : string) (cb : nat) (s : hstate) : Prop :=
    ∀ q, hb_custom s !! rid = Some q → cq_cb q = cb ∧ cq_missing q ≠ ∅.
  Lemma shrink_shrink X Y v : shrink X (shrink Y v) = shrink (Y ∪ X) v.
  Proof.
    destruct v as [[q|] l]; [|done]. unfold shrink at 2 3. cbn [fst snd].
    destruct (decide (cq_missing q ∖ Y = ∅)) as [E|E].
    - destruct (decide (cq_missing q ∖ (Y ∪ X) = ∅)) as [|n]; [done|]. destruct n. set_solver.
    - unfold shrink. cbn [fst snd cq_missing cq_resp cq_cb cq_fetch].
      assert (cq_missing q ∖ Y ∖ X = cq_missing q ∖ (Y ∪ X)) as -> by set_solver. done.
  Qed.

  Lemma calls_of_app s cb cb' c : omap (λ c, if decide (c.1 = cb) then Some c.2 else None) (bs_calls s ++ [(cb', c)]) =
    omap (λ c, if decide (c.1 = cb) then Some c.2 else None) (bs_calls s) ++ (if decide (cb' = cb) then [c] else []).
  Proof. rewrite omap_app. f_equal. cbn. by destruct (decide (cb' = cb)). Qed.
  Lemma hcall_view rid cb cb' c s : view rid cb (hcall cb' c s) = (hb_custom s !! rid, calls_of s cb ++ if decide (cb' = cb) then [c] else []).
  Proof. unfold view, calls_of. cbn. by rewrite calls_of_app. Qed.

  Lemma settle_isolated rid cb r q s : isolated rid cb s → (r ≠ rid → cq_cb q ≠ cb) → isolated rid cb (settle r q s).
  Proof.
    intros (H1 & H2 & H3) Hq. unfold settle. case_decide; (split; [|by split]); intros r' q'; cbn [hb_custom hset hcall].
    - intros [_ ?]%lookup_delete_Some. by apply H1.
    - intros [[-> ->]|[_ ?]]%lookup_insert_Some; [done|by apply H1].
  Qed.
  Lemma settle_other rid cb r q s : r ≠ rid → cq_cb q ≠ cb → view rid cb (settle r q s) = view rid cb s.
  Proof.
    intros Hr Hq. unfold settle, view. case_decide; cbn [hb_custom hset hcall hb_base calls_of].
    - rewrite lookup_delete_ne by done. f_equal. unfold calls_of. cbn. rewrite calls_of_app, decide_False, app_nil_r by done. done.
    - by rewrite lookup_insert_ne.
  Qed.
  Lemma settle_self rid q s : 
    view rid (cq_cb q) (settle rid q s) =
      if decide (cq_missing q = ∅) then (None, calls_of s (cq_cb q) ++ [CalledOk (cq_resp q)]) else (Some q, calls_of s (cq_cb q)).
  Proof.
    unfold settle, view. case_decide; cbn [hb_custom hset hcall hb_base].
    - rewrite lookup_delete. f_equal. unfold calls_of. cbn. by rewrite calls_of_app, decide_True.
    - by rewrite lookup_insert.
  Qed.
  Lemma settle_tidy rid cb q s : cq_cb q = cb → tidy rid cb (settle rid q s).
  Proof.
    intros Hq q'. unfold settle. case_decide; cbn [hb_custom hset hcall].
    - by rewrite lookup_delete.
    - rewrite lookup_insert. by intros [= <-].
  Qed.
  Lemma settle_tidy_other rid cb r q s : r ≠ rid → tidy rid cb s → tidy rid cb (settle r q s).
  Proof.
    intros Hr Ht q'. unfold settle. case_decide; cbn [hb_custom hset hcall].
    - rewrite lookup_delete_ne by done. apply Ht.
    - rewrite lookup_insert_ne by done. apply Ht.
  Qed.

  Lemma remove_one_view rid cb u r s : isolated rid cb s → tidy rid cb s →
    isolated rid cb (remove_one u s r) ∧ tidy rid cb (remove_one u s r) ∧
    view rid cb (remove_one u s r) = if decide (r = rid) then shrink {[u]} (view rid cb s) else view rid cb s.
  Proof.
    intros Hi Ht. unfold remove_one. destruct (hb_custom s !! r) as [q|] eqn:E.
    - destruct (decide (r = rid)) as [->|Hne].
      + destruct (Ht q E) as [<- Hm]. split_and!.
        * by apply settle_isolated.
        * by apply settle_tidy.
        * set (q' := CReq _ _ _ _). change (cq_cb q) with (cq_cb q'). rewrite settle_self. unfold view, shrink. rewrite E. done.
      + pose proof Hi as (H1 & _). split_and!.
        * apply settle_isolated; [done|]. intros _. exact (H1 r q E Hne).
        * by apply settle_tidy_other.
        * apply settle_other; [done|]. exact (H1 r q E Hne).
    - split_and!; try done. destruct (decide (r = rid)) as [->|]; [|done]. unfold view, shrink. by rewrite E.
  Qed.
  Lemma shrink_empty rid cb s : tidy rid cb s → shrink ∅ (view rid cb s) = view rid cb s.
  Proof.
    intros Ht. unfold shrink, view. cbn [fst snd]. destruct (hb_custom s !! rid) as [q|] eqn:E; [|done].
    rewrite difference_empty_L. destruct (Ht q E) as [_ Hm]. rewrite decide_False by done. by destruct q.
  Qed.
  Lemma remove_fold_view rid cb u l s : isolated rid cb s → tidy rid cb s →
    isolated rid cb (foldl (remove_one u) s l) ∧ tidy rid cb (foldl (remove_one u) s l) ∧
    view rid cb (foldl (remove_one u) s l) = if decide (rid ∈ l) then shrink {[u]} (view rid cb s) else view rid cb s.
  Proof.
    revert s. induction l as [|r l IH]; intros s Hi Ht; cbn [foldl].
    { split_and!; done. }
    destruct (remove_one_view rid cb u r s Hi Ht) as (Hi' & Ht' & Hv). destruct (IH _ Hi' Ht') as (? & ? & ->).
    split_and!; try done. rewrite Hv. destruct (decide (r = rid)) as [->|Hne].
    - rewrite (decide_True (P := rid ∈ rid :: l)) by left.
      destruct (decide (rid ∈ l)); [|done]. rewrite shrink_shrink. by rewrite (idemp_L (∪)).
    - destruct (decide (rid ∈ l)) as [Hl|Hl], (decide (rid ∈ r :: l)) as [Hin|Hnin]; try done.
      + destruct Hnin. by right.
      + apply elem_of_cons in Hin as [->|]; done.
  Qed.
  Lemma remove_node_view rid cb o u s : order_ok o → isolated rid cb s → tidy rid cb s →
    isolated rid cb (remove_node o u s) ∧ tidy rid cb (remove_node o u s) ∧
    view rid cb (remove_node o u s) = shrink {[u]} (view rid cb s).
  Proof.
    intros Ho Hi Ht. unfold remove_node.
    destruct (remove_fold_view rid cb u (o (dom (hb_custom s))) s Hi Ht) as (? & ? & Hv).
    split_and!; try done. unfold view, calls_of in *. cbn [hset_nodes hb_custom hb_base]. rewrite Hv.
    destruct (decide (rid ∈ _)) as [|n]; [done|]. unfold shrink. cbn [fst snd].
    destruct (hb_custom s !! rid) as [q|] eqn:E; [|done]. destruct n. rewrite order_elem by done. apply elem_of_dom. eauto.
  Qed.

  Definition stale (t : Z) (s : hstate) : gset string := dom (filter (λ x, (timeout < t - x.2)%Z) (hb_nodes s)).
  Lemma stale_elem t s u : u ∈ stale t s ↔ ∃ t0, hb_nodes s !! u = Some t0 ∧ (timeout < t - t0)%Z.
  Proof.
    unfold stale. rewrite elem_of_dom. split.
    - intros [t0 [? ?]%map_filter_lookup_Some]. eauto.
    - intros (t0 & ? & ?). exists t0. by apply map_filter_lookup_Some.
  Qed.
  Lemma check_fold_view rid cb t o l s : order_ok o → isolated rid cb s → tidy rid cb s →
    isolated rid cb (foldl (check_one timeout t o) s l) ∧ tidy rid cb (foldl (check_one timeout t o) s l) ∧
    view rid cb (foldl (check_one timeout t o) s l) = shrink (list_to_set l ∩ stale t s) (view rid cb s).
  Proof.
    intros Ho. revert s. induction l as [|u l IH]; intros s Hi Ht; cbn [foldl].
    { split_and!; try done. cbn [list_to_set]. rewrite intersection_empty_l_L. by rewrite shrink_empty. }
    assert (isolated rid cb (check_one timeout t o s u) ∧ tidy rid cb (check_one timeout t o s u) ∧
      view rid cb (check_one timeout t o s u) = shrink ({[u]} ∩ stale t s) (view rid cb s) ∧
      stale t (check_one timeout t o s u) = stale t s ∖ {[u]} ∪ (stale t (check_one timeout t o s u) ∩ {[u]}) ∧ u ∉ stale t (check_one timeout t o s u)) as (Hi' & Ht' & Hv & Hst & Hu).
    { unfold check_one. destruct (hb_nodes s !! u) as [t0|] eqn:E; [destruct (decide (timeout < t - t0)%Z) as [Hs|Hs]|].
      - destruct (remove_node_view rid cb o u s Ho Hi Ht) as (? & ? & Hv). split_and!; try done.
        + rewrite Hv. f_equal. assert (u ∈ stale t s) by (apply stale_elem; eauto). set_solver.
        + apply set_eq. intros v. rewrite elem_of_union, elem_of_difference, elem_of_intersection, !elem_of_singleton, !stale_elem, remove_node_nodes.
          destruct (decide (v = u)) as [->|]; [rewrite lookup_delete; naive_solver|rewrite lookup_delete_ne by done; naive_solver].
        + rewrite stale_elem, remove_node_nodes, lookup_delete. naive_solver.
      - assert (u ∉ stale t s) by (rewrite stale_elem, E; intros (? & [= <-] & ?); done).
        split_and!; try done; [|set_solver].
        assert ({[u]} ∩ stale t s = ∅) as -> by set_solver. by rewrite shrink_empty.
      - assert (u ∉ stale t s) by (rewrite stale_elem, E; intros (? & [=] & ?)).
        split_and!; try done; [|set_solver].
        assert ({[u]} ∩ stale t s = ∅) as -> by set_solver. by rewrite shrink_empty. }
    destruct (IH _ Hi' Ht') as (? & ? & ->). split_and!; try done. rewrite Hv, shrink_shrink. f_equal.
    assert (Hst' : stale t (check_one timeout t o s u) = stale t s ∖ {[u]}) by set_solver.
    rewrite Hst'. cbn [list_to_set]. apply set_eq. intros v. destruct (decide (v = u)); set_solver.
  Qed.
  Lemma check_view rid cb t on o s : order_ok on → order_ok o → isolated rid cb s → tidy rid cb s →
    isolated rid cb (check timeout t on o s) ∧ tidy rid cb (check timeout t on o s) ∧
    view rid cb (check timeout t on o s) = shrink (stale t s) (view rid cb s).
  Proof.
    intros Hon Ho Hi Ht. unfold check. destruct (check_fold_view rid cb t o (on (dom (hb_nodes s))) s Ho Hi Ht) as (? & ? & ->).
    split_and!; try done. f_equal. apply set_eq. intros u. rewrite elem_of_intersection, elem_of_list_to_set, order_elem by done.
    split; [naive_solver|]. intros Hu. split; [|done]. apply stale_elem in Hu as (t0 & E & _). apply elem_of_dom. eauto.
  Qed.

  Definition respond (u : string) (l : list value) (v : option creq * list ccall) : option creq * list ccall :=
    match v.1 with
    | Some q => if decide (cq_missing q ∖ {[u]} = ∅) then (None, v.2 ++ [CalledOk (cq_resp q ++ l)])
                else (Some (CReq (cq_cb q) (cq_fetch q) (cq_missing q ∖ {[u]}) (cq_resp q ++ l)), v.2)
    | None => v
    end.
  Definition expire (v : option creq * list ccall) : option creq * list ccall :=
    match v.1 with Some q => (None, v.2 ++ [CalledErr (if cq_fetch q then [] else cq_resp q)]) | None => v end.
  Definition effect (rid : string) (e : hev) (s : hstate) (v : option creq * list ccall) : option creq * list ccall :=
    match e with
    | HMessage _ _ u MClose => if decide (u = self) then v else shrink {[u]} v
    | HCheck t _ _ => shrink (stale t s) v
    | HResponse u (RSockets i l) => if decide (i = rid) then respond u l v else v
    | HResponse u (REmitted i l) => if decide (i = rid) then respond u [VArr l] v else v
    | HTimer i => if decide (i = rid) then expire v else v
    | _ => v
    end.
  Definition foreign (rid : string) (cb : nat) (e : hev) : Prop := ∀ cb' rid', req_of e = Some (cb', rid') → cb' ≠ cb ∧ rid' ≠ rid.

  Lemma response_view rid cb u r s : isolated rid cb s → tidy rid cb s →
    isolated rid cb (on_response u r s) ∧ tidy rid cb (on_response u r s) ∧ view rid cb (on_response u r s) = effect rid (HResponse u r) s (view rid cb s).
  Proof.
    intros Hi Ht. pose proof Hi as (H1 & H2 & H3). 
    assert (Hacks : ∀ i c, 
      let s' := match bs_acks (hb_base s) !! i with Some cb => bcall cb c (hb_base s) | None => hb_base s end in
      isolated rid cb (HState s' (hb_nodes s) (hb_custom s)) ∧ tidy rid cb (HState s' (hb_nodes s) (hb_custom s)) ∧ view rid cb (HState s' (hb_nodes s) (hb_custom s)) = view rid cb s).
    { intros i c. cbv zeta. destruct (bs_acks (hb_base s) !! i) as [c'|] eqn:E; [|by destruct s].
      split_and!; [by split_and!|done|]. unfold view, calls_of. cbn. rewrite calls_of_app, decide_False, app_nil_r; [done|]. by apply (H2 i). }
    assert (Hreq : ∀ i l,
      let s' := match hb_custom s !! i with Some q => settle i (CReq (cq_cb q) (cq_fetch q) (cq_missing q ∖ {[u]}) (cq_resp q ++ l)) s | None => s end in
      isolated rid cb s' ∧ tidy rid cb s' ∧ view rid cb s' = if decide (i = rid) then respond u l (view rid cb s) else view rid cb s).
    { intros i l. cbv zeta. destruct (hb_custom s !! i) as [q|] eqn:E.
      - destruct (decide (i = rid)) as [->|Hne].
        + destruct (Ht q E) as [<- Hm]. split_and!; [by apply settle_isolated|by apply settle_tidy|].
          set (q' := CReq _ _ _ _). change (cq_cb q) with (cq_cb q'). rewrite settle_self. unfold view, respond. rewrite E. done.
        + split_and!; [apply settle_isolated; [done|]; intros _; exact (H1 i q E Hne)|by apply settle_tidy_other|].
          apply settle_other; [done|]. exact (H1 i q E Hne).
      - split_and!; try done. destruct (decide (i = rid)) as [->|]; [|done]. unfold view, respond. by rewrite E. }
    destruct r as [i n|i l|i l|i l]; cbn [on_response base_on_response effect].
    - apply Hacks.
    - apply Hacks.
    - apply Hreq.
    - apply (Hreq i [VArr l]).
  Qed.
  Lemma message_view rid cb t o u m s : order_ok o → isolated rid cb s → tidy rid cb s →
    isolated rid cb (on_message self t o u m s) ∧ tidy rid cb (on_message self t o u m s) ∧
    view rid cb (on_message self t o u m s) = effect rid (HMessage t o u m) s (view rid cb s).
  Proof.
    intros Ho Hi Ht. unfold on_message. cbn [effect]. destruct (decide (u = self)) as [Hu|Hu].
    { split_and!; try done. by destruct m. }
    set (s1 := if decide (u = emitter_uid) then s else _).
    assert (isolated rid cb s1 ∧ tidy rid cb s1 ∧ view rid cb s1 = view rid cb s ∧ bs_reqs (hb_base s1) = ∅) as (Hi1 & Ht1 & Hv1 & Hr1).
    { unfold s1. destruct Hi as (? & ? & ?). case_decide; split_and!; try done. }
    rewrite <-Hv1. clearbody s1. destruct m as [| | |r|]; try (by split_and!).
    - by apply remove_node_view.
    - cbn [base_on_message]. unfold base_on_message. rewrite decide_False by done. pose proof Hi1 as (H1 & H2 & _).
      destruct r as [i n|i l|i l|i l]; cbn [base_on_response]; rewrite ?Hr1, ?lookup_empty.
      3, 4: by destruct s1.
      all: destruct (bs_acks (hb_base s1) !! i) as [c'|] eqn:E; [|by destruct s1].
      all: split_and!; [by split_and!|done|]; unfold view, calls_of; cbn; rewrite calls_of_app, decide_False, app_nil_r; [done|].
      all: by apply (H2 i).
    - unfold base_on_message. rewrite decide_False by done. by destruct s1.
  Qed.
  Lemma new_request_view rid cb r q p s : isolated rid cb s → tidy rid cb s → r ≠ rid → cq_cb q ≠ cb →
    let s' := hpub p (hset (<[r := q]> (hb_custom s)) s) in
    isolated rid cb s' ∧ tidy rid cb s' ∧ view rid cb s' = view rid cb s.
  Proof.
    intros (H1 & H2 & H3) Ht Hr Hq. cbv zeta. split_and!.
    - split_and!; [|done..]. intros r' q'. cbn [hb_custom hpub hset]. intros [[-> ->]|[_ ?]]%lookup_insert_Some; [done|by apply H1].
    - intros q'. cbn [hb_custom hpub hset]. rewrite lookup_insert_ne by done. apply Ht.
    - unfold view. cbn [hb_custom hpub hset]. by rewrite lookup_insert_ne.
  Qed.
  Lemma foreign_call_view rid cb cb' c s : isolated rid cb s → tidy rid cb s → cb' ≠ cb →
    isolated rid cb (hcall cb' c s) ∧ tidy rid cb (hcall cb' c s) ∧ view rid cb (hcall cb' c s) = view rid cb s.
  Proof. intros Hi Ht Hne. split_and!; try done. rewrite hcall_view, decide_False, app_nil_r; done. Qed.
  Lemma step_view rid cb e s : hev_ok e → foreign rid cb e → isolated rid cb s → tidy rid cb s →
    isolated rid cb (hstep s e) ∧ tidy rid cb (hstep s e) ∧ view rid cb (hstep s e) = effect rid e s (view rid cb s).
  Proof.
    intros He Hf Hi Ht. destruct e as [t o v m|v r|t on o|loc cb' i l|cb' i|i|cb' i|i]; cbn [ClusterReq.hstep].
    - by apply message_view.
    - by apply response_view.
    - destruct He. by apply check_view.
    - destruct (Hf cb' i eq_refl). unfold fetch. cbv zeta. destruct (_ || _).
      + by apply foreign_call_view.
      + by apply new_request_view.
    - destruct (Hf cb' i eq_refl). unfold server_emit. case_decide.
      + by apply foreign_call_view.
      + by apply new_request_view.
    - unfold req_timer. cbn [effect]. destruct (hb_custom s !! i) as [q|] eqn:E.
      + pose proof Hi as (H1 & H2 & H3). split_and!.
        * split_and!; try done. intros r' q'. cbn [hb_custom hset hcall]. intros [_ ?]%lookup_delete_Some. by apply H1.
        * intros q'. cbn [hb_custom hset hcall]. intros [_ ?]%lookup_delete_Some. by apply Ht.
        * destruct (decide (i = rid)) as [->|Hne].
          -- destruct (Ht q E) as [<- _]. unfold view, expire. cbn [hb_custom hset hcall fst snd]. rewrite lookup_delete, E. f_equal.
             unfold calls_of. cbn. by rewrite calls_of_app, decide_True.
          -- unfold view. cbn [hb_custom hset hcall]. rewrite lookup_delete_ne by done. f_equal.
             unfold calls_of. cbn. rewrite calls_of_app, decide_False, app_nil_r; [done|]. by apply (H1 i).
      + split_and!; try done. destruct (decide (i = rid)) as [->|]; [|done]. unfold view, expire. by rewrite E.
    - destruct (Hf cb' i eq_refl). destruct Hi as (H1 & H2 & H3). split_and!; try done. split_and!; try done.
      intros r c. cbn. intros [[-> <-]|[_ ?]]%lookup_insert_Some; [done|by eapply H2].
    - destruct Hi as (H1 & H2 & H3). split_and!; try done. split_and!; try done.
      intros r c. cbn. intros [_ ?]%lookup_delete_Some. by eapply H2.
  Qed.

  Lemma before_request h rid cb : Forall hev_ok h → (∀ e, e ∈ h → foreign rid cb e) →
    isolated rid cb (hrun h) ∧ tidy rid cb (hrun h) ∧ view rid cb (hrun h) = (None, []).
  Proof.
    induction h as [|e h IH] using rev_ind; intros Hok Hf.
    { split_and!; try done. }
    apply Forall_app in Hok as [Hok He]. rewrite Forall_singleton in He.
    destruct IH as (Hi & Ht & Hv); [done| |]. { intros x Hx. apply Hf, elem_of_app. by left. }
    rewrite hrun_snoc. destruct (step_view rid cb e (hrun h)) as (? & ? & Hv'); try done.
    { apply Hf, elem_of_app. right. by left. }
    split_and!; try done. rewrite Hv', Hv. destruct e as [? ? ? []| ? []| | | | | |]; cbn; try done; by case_decide.
  Qed.

  (** One request: [e] at the end of [h1], then [a]. *)
  Section request.
    Context (h1 : list hev) (e : hev) (cb : nat) (rid : string) (local : list value) (isf : bool).
    Hypothesis He : e = HFetch false cb rid local ∧ isf = true ∨ e = HEmit cb rid ∧ local = [] ∧ isf = false.
    Hypothesis Hok1 : Forall hev_ok h1.
    Hypothesis Hf1 : ∀ x, x ∈ h1 → foreign rid cb x.
    Notation N := (dom (hb_nodes (hrun h1))).
    Hypothesis HN : N ≠ ∅.
    Notation st a := (hrun (h1 ++ e :: a)).
    Notation sett := (settled self timeout rid (h1 ++ [e])).
    Definition complete (a : list hev) : Prop := ∀ u, u ∈ N → sett a u.

    Lemma st_snoc a x : st (a ++ [x]) = hstep (st a) x.
    Proof. rewrite app_comm_cons, app_assoc. apply hrun_snoc. Qed.
    Lemma settled_snoc a x u : sett (a ++ [x]) u ↔ sett a u ∨ answers rid x u ∨ departs self timeout (h1 ++ e :: a) x u.
    Proof.
      unfold settled. split.
      - intros (a1 & y & a2 & E & Hy). apply snoc_split in E as [(-> & -> & ->)|(a2' & -> & ->)].
        + right. by rewrite <-app_assoc in Hy.
        + left. by exists a1, y, a2'.
      - intros [(a1 & y & a2 & -> & Hy)|Hx].
        + exists a1, y, (a2 ++ [x]). by rewrite <-app_assoc.
        + exists a, x, []. split; [done|]. by rewrite <-app_assoc.
    Qed.
    Lemma complete_mono a b : complete a → complete (a ++ b).
    Proof. intros Hc u Hu. destruct (Hc u Hu) as (a1 & y & a2 & -> & Hy). exists a1, y, (a2 ++ b). by rewrite <-app_assoc. Qed.
    Lemma gathered_snoc a x : gathered rid (a ++ [x]) = gathered rid a ++ gathered rid [x].
    Proof. unfold gathered. by rewrite omap_app, concat_app. Qed.

    Record pending (a : list hev) (q : creq) : Prop := {
      pe_req : hb_custom (st a) !! rid = Some q;
      pe_cb : cq_cb q = cb; pe_fetch : cq_fetch q = isf;
      pe_calls : calls_of (st a) cb = [];
      pe_missing : ∀ u, u ∈ cq_missing q → u ∈ N ∧ ¬ sett a u ∧ u ∈ dom (hb_nodes (st a));
      pe_settled : ∀ u, u ∈ N → sett a u ∨ u ∈ cq_missing q;
      pe_resp : cq_resp q = local ++ gathered rid a;
      pe_ne : cq_missing q ≠ ∅;
      pe_timer : HTimer rid ∉ a }.
    Inductive fate (a : list hev) : Prop :=
      | FPending q : pending a q → fate a
      | FOk a1 x a2 : a = a1 ++ x :: a2 → complete (a1 ++ [x]) → ¬ complete a1 → HTimer rid ∉ a1 →
          hb_custom (st a) !! rid = None → calls_of (st a) cb = [CalledOk (local ++ gathered rid (a1 ++ [x]))] → fate a
      | FErr a1 a2 : a = a1 ++ HTimer rid :: a2 → ¬ complete a1 → HTimer rid ∉ a1 →
          hb_custom (st a) !! rid = None → calls_of (st a) cb = [CalledErr (if isf then [] else gathered rid a1)] → fate a.

    Lemma pending_incomplete a q : pending a q → ¬ complete a.
    Proof. intros Hp Hc. apply (pe_ne _ _ Hp), set_eq. intros u. split; [|set_solver]. intros Hu. destruct (pe_missing _ _ Hp u Hu) as (? & Hn & _). by destruct Hn; apply Hc. Qed.

    (** Setting the state for the next steps. *)
    Lemma request_start : isolated rid cb (st []) ∧ tidy rid cb (st []) ∧ pending [] (CReq cb isf N local).
    Proof.
      destruct (before_request h1 rid cb Hok1 Hf1) as ((H1 & H2 & H3) & Ht & [= Hv1 Hv2]).
      assert (Hsz : size (hb_nodes (hrun h1)) ≠ 0).
      { intros Hs. apply HN. apply map_size_empty_iff in Hs. rewrite Hs. apply dom_empty_L. }
      assert (Hst : ∃ p, st [] = hpub p (hset (<[rid := CReq cb isf N local]> (hb_custom (hrun h1))) (hrun h1))).
      { rewrite hrun_snoc. destruct He as [[-> ->]|(-> & -> & ->)]; cbn [ClusterReq.hstep].
        - unfold fetch, server_count. cbv zeta. cbn [orb]. rewrite bool_decide_eq_false_2 by lia. eauto.
        - unfold server_emit. rewrite decide_False by done. eauto. }
      destruct Hst as [p Hst]. split_and!.
      - rewrite Hst. split_and!; try done. intros r q. cbn [hb_custom hpub hset]. intros [[<- <-]|[_ ?]]%lookup_insert_Some; [done|]. by apply H1.
      - rewrite Hst. intros q. cbn [hb_custom hpub hset]. rewrite lookup_insert. by intros [= <-].
      - constructor; cbn [cq_cb cq_fetch cq_missing cq_resp]; try done.
        + rewrite Hst. cbn [hb_custom hpub hset]. by rewrite lookup_insert.
        + by rewrite Hst.
        + intros u Hu. split_and!; [done| |by rewrite Hst]. intros (a1 & x & a2 & E & _). by destruct a1.
        + intros u Hu. by right.
        + by rewrite app_nil_r.
        + apply not_elem_of_nil.
    Qed.
    Hypothesis Heok : hev_ok e.

    Lemma known_departs a x u : Forall hev_ok (h1 ++ e :: a) → hev_ok x → u ∈ dom (hb_nodes (st a)) →
      departs self timeout (h1 ++ e :: a) x u ∨ (¬ departs self timeout (h1 ++ e :: a) x u ∧ u ∈ dom (hb_nodes (st (a ++ [x])))).
    Proof.
      intros Hok Hx [t0 Hu]%elem_of_dom. rewrite st_snoc.
      pose proof Hu as Hl. apply nodes_spec in Hl as (Hs & Hem & m & b1 & o & b2 & E & Hlast & Hm & Hc); [|done].
      assert (HL : last_heard (h1 ++ e :: a) u t0 m) by (by exists b1, o, b2).
      destruct x as [t o' v m'|v r|t on o'|loc cb' i l|cb' i|i|cb' i|i].
      2, 4, 5, 6, 7, 8: right; split; [intros [(? & ? & [=] & _)|(? & ? & ? & ? & ? & [=] & _)]|]; rewrite step_nodes_frame by done; apply elem_of_dom; eauto.
      - destruct (decide (v = u)) as [->|Hne].
        + destruct (decide (m' = MClose)) as [->|Hm']; [left; left; eauto|]. right. split.
          { intros [(? & ? & [=] & _)|(? & ? & ? & ? & ? & [=] & _)]. done. }
          cbn [ClusterReq.hstep]. apply elem_of_dom. rewrite message_nodes, decide_True by auto. destruct m'; try done; eauto.
        + right. split. { intros [(? & ? & [=] & _)|(? & ? & ? & ? & ? & [=] & _)]. done. }
          cbn [ClusterReq.hstep]. apply elem_of_dom. rewrite message_nodes, decide_False by naive_solver. eauto.
      - destruct Hx as [Hon _]. destruct (decide (timeout < t - t0)%Z) as [Hd|Hd].
        + left. right. exists t, on, o', t0, m. done.
        + right. split.
          * intros [(? & ? & [=] & _)|(? & ? & ? & t1 & m1 & [= <- <- <-] & HL' & ?)].
            by rewrite (last_heard_unique _ _ _ _ _ _ HL HL') in Hd.
          * cbn [ClusterReq.hstep]. apply elem_of_dom. rewrite check_nodes, Hu, decide_False by done. eauto.
    Qed.
    (** The servers that a step removes from the request are those that settle. *)
    Definition gone (x : hev) (s : hstate) : gset string :=
      match x with
      | HMessage _ _ u MClose => if decide (u = self) then ∅ else {[u]}
      | HCheck t _ _ => stale t s
      | HResponse u (RSockets i _) | HResponse u (REmitted i _) => if decide (i = rid) then {[u]} else ∅
      | _ => ∅
      end.
    Lemma gone_spec a x u : Forall hev_ok (h1 ++ e :: a) → u ∈ dom (hb_nodes (st a)) →
      u ∈ gone x (st a) ↔ answers rid x u ∨ departs self timeout (h1 ++ e :: a) x u.
    Proof.
      intros Hok [t0 Hu]%elem_of_dom.
      pose proof Hu as Hl. apply nodes_spec in Hl as (Hs & Hem & m & b1 & o & b2 & E & Hlast & Hm & Hc); [|done].
      assert (HL : last_heard (h1 ++ e :: a) u t0 m) by (by exists b1, o, b2). clear E Hlast Hc.
      unfold answers, departs.
      assert (Hinv : ∀ P : Prop, (∀ l, x = HResponse u (RSockets rid l) → P) → (∀ l, x = HResponse u (REmitted rid l) → P) →
        (∀ t o, x = HMessage t o u MClose → u ≠ self → P) → (∀ t on o t0 m, x = HCheck t on o → last_heard (h1 ++ e :: a) u t0 m → (timeout < t - t0)%Z → P) →
        answers rid x u ∨ departs self timeout (h1 ++ e :: a) x u → P).
      { intros P P1 P2 P3 P4 [(l & [?|?])|[(t & o' & ? & ?)|(t & on & o' & t1 & m1 & ? & ? & ?)]]; eauto. }
      assert (Hno : (∀ l, x ≠ HResponse u (RSockets rid l)) → (∀ l, x ≠ HResponse u (REmitted rid l)) → (∀ t o, x = HMessage t o u MClose → u = self) → (∀ t on o, x ≠ HCheck t on o) →
        u ∈ (∅ : gset string) ↔ answers rid x u ∨ departs self timeout (h1 ++ e :: a) x u).
      { intros Q1 Q2 Q3 Q4. split; [by intros ?%not_elem_of_empty|]. apply Hinv; intros; exfalso; naive_solver. }
      unfold answers, departs in Hinv, Hno.
      destruct x as [t o' v m'|v r|t on o'|loc cb' i l|cb' i|i|cb' i|i]; cbn [gone]; try (by apply Hno).
      - destruct m'; try (by apply Hno). destruct (decide (v = self)) as [->|].
        + apply Hno; try done. by intros ? ? [=].
        + split; [intros ->%elem_of_singleton; right; left; eauto|]. apply Hinv; try done. intros ? ? [= -> -> ->] _. by apply elem_of_singleton.
      - destruct r as [i n|i l|i l|i l]; try (by apply Hno).
        + destruct (decide (i = rid)) as [->|]; [|by apply Hno; try done; intros ? [=]].
          split; [intros ->%elem_of_singleton; left; eauto|]. apply Hinv; try done. intros ? [= -> ->]. by apply elem_of_singleton.
        + destruct (decide (i = rid)) as [->|]; [|by apply Hno; try done; intros ? [=]].
          split; [intros ->%elem_of_singleton; left; eauto|]. apply Hinv; try done. intros ? [= -> ->]. by apply elem_of_singleton.
      - rewrite stale_elem. split.
        + intros (t1 & E & ?). right. right. rewrite Hu in E. injection E as <-. by exists t, on, o', t0, m.
        + intros [(? & [[=]|[=]])|[(? & ? & [=] & _)|(? & ? & ? & t1 & m1 & [= <- <- <-] & HL' & ?)]].
          exists t0. split; [done|]. by rewrite (last_heard_unique _ _ _ _ _ _ HL HL').
    Qed.
    Lemma effect_pending x s q l : x ≠ HTimer rid → cq_missing q ≠ ∅ →
      effect rid x s (Some q, l) =
        if decide (cq_missing q ∖ gone x s = ∅) then (None, l ++ [CalledOk (cq_resp q ++ gathered rid [x])])
        else (Some (CReq (cq_cb q) (cq_fetch q) (cq_missing q ∖ gone x s) (cq_resp q ++ gathered rid [x])), l).
    Proof.
      intros Hx Hq.
      assert (H0 : (Some q, l) = if decide (cq_missing q ∖ ∅ = ∅) then (None, l ++ [CalledOk (cq_resp q ++ [])])
         else (Some (CReq (cq_cb q) (cq_fetch q) (cq_missing q ∖ ∅) (cq_resp q ++ [])), l)).
      { rewrite difference_empty_L, app_nil_r, decide_False by done. by destruct q. }
      destruct x as [t o' v m'|v r|t on o'|loc cb' i k|cb' i|i|cb' i|i]; cbn [effect gone]; try exact H0.
      - destruct m'; try exact H0. destruct (decide (v = self)); [exact H0|]. unfold shrink. cbn [fst snd].
        change (gathered rid [_]) with (@nil value). by rewrite app_nil_r.
      - destruct r as [i n|i k|i k|i k]; try exact H0; unfold gathered; cbn; (destruct (decide (i = rid)); [|exact H0]); cbn; unfold respond; cbn [fst snd]; by rewrite ?app_nil_r.
      - unfold shrink. cbn [fst snd]. change (gathered rid [_]) with (@nil value). by rewrite app_nil_r.
      - destruct (decide (i = rid)) as [->|]; [done|exact H0].
    Qed.

    Lemma request_fate a : Forall hev_ok a → (∀ x, x ∈ a → foreign rid cb x) →
      isolated rid cb (st a) ∧ tidy rid cb (st a) ∧ fate a.
    Proof.
      induction a as [|x a IH] using rev_ind; intros Hok Hf.
      { destruct request_start as (? & ? & ?). split_and!; try done. by eapply FPending. }
      apply Forall_app in Hok as [Hok Hx]. rewrite Forall_singleton in Hx.
      destruct IH as (Hi & Ht & Hfa); [done| |]. { intros y Hy. apply Hf, elem_of_app. by left. }
      destruct (step_view rid cb x (st a)) as (Hi' & Ht' & Hv); try done. { apply Hf, elem_of_app. right. by left. }
      rewrite <-st_snoc in Hi', Ht', Hv. split_and!; try done.
      assert (Hokall : Forall hev_ok (h1 ++ e :: a)) by (apply Forall_app; split; [done|by constructor]).
      destruct Hfa as [q Hp|a1 y a2 E Hc Hn Htm Hnone Hcalls|a1 a2 E Hn Htm Hnone Hcalls].
      - assert (Hview : view rid cb (st a) = (Some q, [])) by (unfold view; by rewrite (pe_req _ _ Hp), (pe_calls _ _ Hp)).
        rewrite Hview in Hv.
        assert (Hdt : x = HTimer rid ∨ x ≠ HTimer rid).
        { destruct x as [| | | | |i| |]; try (by right). destruct (decide (i = rid)) as [->|]; [by left|right; congruence]. }
        destruct Hdt as [->|Hnt].
        { cbn [effect] in Hv. rewrite decide_True in Hv by done. unfold expire in Hv. cbn [fst snd] in Hv. injection Hv as Hv1 Hv2.
          eapply (FErr _ a []); try done.
          - by apply (pending_incomplete a q).
          - apply (pe_timer _ _ Hp).
          - rewrite Hv2, (pe_fetch _ _ Hp). f_equal. f_equal. rewrite (pe_resp _ _ Hp).
            destruct He as [[_ ->]|(_ & -> & ->)]; done. }
        rewrite effect_pending in Hv; [|done|apply (pe_ne _ _ Hp)].
        assert (Hgone : ∀ u, u ∈ cq_missing q → u ∈ gone x (st a) ↔ answers rid x u ∨ departs self timeout (h1 ++ e :: a) x u).
        { intros u Hu. apply gone_spec; [done|]. apply (pe_missing _ _ Hp u Hu). }
        destruct (decide (cq_missing q ∖ gone x (st a) = ∅)) as [Hz|Hz]; injection Hv as Hv1 Hv2.
        + eapply (FOk _ a x []); try done.
          * intros u Hu. apply settled_snoc. destruct (pe_settled _ _ Hp u Hu) as [|Hm]; [by left|]. right. apply Hgone; [done|].
            destruct (decide (u ∈ gone x (st a))); [done|]. set_solver.
          * by apply (pending_incomplete a q).
          * apply (pe_timer _ _ Hp).
          * rewrite Hv2, (pe_resp _ _ Hp), gathered_snoc. by rewrite app_assoc.
        + eapply FPending. constructor; [exact Hv1|apply (pe_cb _ _ Hp)|apply (pe_fetch _ _ Hp)|exact Hv2|..]; cbn [cq_missing cq_resp].
          * intros u [Hu Hg]%elem_of_difference. destruct (pe_missing _ _ Hp u Hu) as (? & Hns & Hk). rewrite Hgone in Hg by done.
            split_and!; [done| |].
            -- rewrite settled_snoc. tauto.
            -- destruct (known_departs a x u Hokall Hx Hk) as [|[]]; tauto.
          * intros u Hu. rewrite settled_snoc. destruct (pe_settled _ _ Hp u Hu) as [|Hm]; [by left; left|].
            destruct (decide (u ∈ gone x (st a))) as [Hg|Hg]; [left; right; by apply Hgone|right; set_solver].
          * rewrite (pe_resp _ _ Hp), gathered_snoc. by rewrite app_assoc.
          * done.
          * rewrite elem_of_app, elem_of_list_singleton. intros [?|?]; [by apply (pe_timer _ _ Hp)|done].
      - assert (Hview : effect rid x (st a) (view rid cb (st a)) = view rid cb (st a)).
        { unfold view. rewrite Hnone. destruct x as [? ? ? []| ? []| | | | | |]; cbn; try done; by case_decide. }
        rewrite Hview in Hv. injection Hv as Hv1 Hv2. eapply (FOk _ a1 y (a2 ++ [x])); try done.
        + by rewrite E, <-app_assoc.
        + by rewrite Hv1.
        + by rewrite Hv2.
      - assert (Hview : effect rid x (st a) (view rid cb (st a)) = view rid cb (st a)).
        { unfold view. rewrite Hnone. destruct x as [? ? ? []| ? []| | | | | |]; cbn; try done; by case_decide. }
        rewrite Hview in Hv. injection Hv as Hv1 Hv2. eapply (FErr _ a1 (a2 ++ [x])); try done.
        + by rewrite E, <-app_assoc.
        + by rewrite Hv1.
        + by rewrite Hv2.
    Qed.

    (** Which of the three it is. *)
    Lemma split_compare (a1 a2 b1 b2 : list hev) x y : a1 ++ x :: a2 = b1 ++ y :: b2 →
      (a1 = b1 ∧ x = y ∧ a2 = b2) ∨ (∃ k, b1 = (a1 ++ [x]) ++ k) ∨ (∃ k, a1 = (b1 ++ [y]) ++ k).
    Proof.
      intros E. destruct (app_eq_inv _ _ _ _ E) as [(k & -> & E')|(k & -> & E')]; destruct k as [|z k]; cbn in E'.
      - injection E' as -> ->. left. by rewrite app_nil_r.
      - injection E' as <- ->. right. right. exists k. by rewrite <-app_assoc.
      - injection E' as -> ->. left. by rewrite app_nil_r.
      - injection E' as <- ->. right. left. exists k. by rewrite <-app_assoc.
    Qed.
    Lemma timer_settles_nothing a : complete (a ++ [HTimer rid]) → complete a.
    Proof.
      intros Hc u Hu. specialize (Hc u Hu). apply settled_snoc in Hc as [|[(? & [[=]|[=]])|[(? & ? & [=] & _)|(? & ? & ? & ? & ? & [=] & _)]]]; done.
    Qed.
    Lemma request_outcome h2 : Forall hev_ok h2 → (∀ x, x ∈ h2 → foreign rid cb x) →
      (∀ l, calls_of (st h2) cb = [CalledOk l] ↔ ∃ a x b, h2 = a ++ x :: b ∧ ¬ complete a ∧ complete (a ++ [x]) ∧ HTimer rid ∉ a ∧ l = local ++ gathered rid (a ++ [x])) ∧
      (∀ l, calls_of (st h2) cb = [CalledErr l] ↔ ∃ a b, h2 = a ++ HTimer rid :: b ∧ ¬ complete a ∧ HTimer rid ∉ a ∧ l = if isf then [] else gathered rid a) ∧
      (calls_of (st h2) cb = [] ∨ (∃ l, calls_of (st h2) cb = [CalledOk l]) ∨ (∃ l, calls_of (st h2) cb = [CalledErr l])).
    Proof.
      intros Hok Hf. destruct (request_fate h2 Hok Hf) as (_ & _ & [q Hp|a1 y a2 E Hc Hn Htm Hnone Hcalls|a1 a2 E Hn Htm Hnone Hcalls]).
      - rewrite (pe_calls _ _ Hp). split_and!; [| |by left].
        + intros l. split; [done|]. intros (a & x & b & -> & _ & Hc & _). destruct (pending_incomplete _ _ Hp).
          replace (a ++ x :: b) with ((a ++ [x]) ++ b) by (by rewrite <-app_assoc). by apply complete_mono.
        + intros l. split; [done|]. intros (a & b & -> & _). destruct (pe_timer _ _ Hp). apply elem_of_app. right. by left.
      - rewrite Hcalls. split_and!; [| |by right; left; eauto].
        + intros l. split.
          * intros [= <-]. by exists a1, y, a2.
          * intros (a & x & b & E' & Hn' & Hc' & Htm' & ->). rewrite E in E'.
            destruct (split_compare _ _ _ _ _ _ E') as [(-> & -> & ->)|[[k ->]|[k ->]]]; [done| |].
            -- destruct Hn'. by apply complete_mono.
            -- destruct Hn. by apply complete_mono.
        + intros l. split; [done|]. intros (a & b & E' & Hn' & Htm' & ->). rewrite E in E'.
          destruct (split_compare _ _ _ _ _ _ E') as [(-> & -> & ->)|[[k ->]|[k ->]]].
          * destruct Hn. by apply timer_settles_nothing.
          * destruct Hn'. by apply complete_mono.
          * destruct Htm. apply elem_of_app. left. apply elem_of_app. right. by left.
      - rewrite Hcalls. split_and!; [| |by right; right; eauto].
        + intros l. split; [done|]. intros (a & x & b & E' & Hn' & Hc' & Htm' & ->). rewrite E in E'.
          destruct (split_compare _ _ _ _ _ _ E') as [(-> & <- & ->)|[[k ->]|[k ->]]].
          * destruct Hn. by apply timer_settles_nothing.
          * destruct Htm'. apply elem_of_app. left. apply elem_of_app. right. by left.
          * destruct Hn. by apply complete_mono.
        + intros l. split.
          * intros [= <-]. by exists a1, a2.
          * intros (a & b & E' & Hn' & Htm' & ->). rewrite E in E'.
            destruct (split_compare _ _ _ _ _ _ E') as [(-> & _ & ->)|[[k ->]|[k ->]]]; [done| |].
            -- destruct Htm'. apply elem_of_app. left. apply elem_of_app. right. by left.
            -- destruct Htm. apply elem_of_app. left. apply elem_of_app. right. by left.
    Qed.
  End request.
End proofs.
