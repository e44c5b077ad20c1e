From Verif Require Import Base GoTypes Rooms RoomsSpec RoomsProofs Adapter AdapterSpec AdapterProofs Cluster ClusterSpec.

Lemma opts_rooms_hop o1 o2 opts : order_ok o1 → order_ok o2 →
  opt_rooms (Some (decode_options (Some (encode_options o1 o2 opts)))) = opt_rooms opts ∧
  opt_except (Some (decode_options (Some (encode_options o1 o2 opts)))) = opt_except opts ∧
  bo_flags (decode_options (Some (encode_options o1 o2 opts))) = (o ← opts; bo_flags o).
Proof.
  intros H1 H2. unfold opt_rooms, opt_except. destruct opts as [[rs ex f]|]; cbn; [|done]. split_and!; [| |done].
  - destruct rs as [rs|]; [|done]. apply set_eq. intros x. rewrite elem_of_list_to_set. by apply order_elem.
  - destruct ex as [ex|]; [|done]. apply set_eq. intros x. rewrite elem_of_list_to_set. by apply order_elem.
Qed.

Section proofs.
  Context (csr : bool) (uids : gset string).
  Notation run := (crun csr uids).
  Lemma crun_snoc h op : run (h ++ [op]) = cstep csr (run h) op.
  Proof. unfold crun. by rewrite foldl_app. Qed.

  Lemma local_op_wf {P} l (s : nspace P) : (∀ id o, l = LClose id o → order_ok o) → ns_wf s → ns_wf (local_op l s) ∧ ns_written (local_op l s) = ns_written s.
  Proof.
    intros Ho Hwf. pose proof Hwf as (W1&W2&W3). apply ns_wf_alt in Hwf as (X1&X2&X3). destruct l as [id|id rs|id r|id o]; cbn [local_op].
    - destruct (ns_sockets s !! id) as [a|] eqn:E; [done|]. set (s1 := NSpace _ _ _ _).
      destruct (sock_join_fields [id] (ASock id true) s1 eq_refl) as (F1&F2&F3&F4&F5). split; [|by rewrite F2].
      apply ns_wf_alt. split_and!; [by apply F4| |].
      + intros j b. rewrite F1. unfold s1. cbn [ns_sockets]. intros [[<- <-]|[? ?]]%lookup_insert_Some; [done|by apply X2].
      + intros j. unfold listed. rewrite F1, F5. unfold s1. cbn [ns_sockets ns_reg as_id]. intros [b [[<- _]|[_ Hb]]%lookup_insert_Some]; [by right|left]. apply X3. by exists b.
    - destruct (ns_sockets s !! id) as [a|] eqn:E; [|done]. destruct (X2 _ _ E) as [Ea Ec]. destruct (sock_join_fields rs a s Ec) as (F1&F2&F3&F4&F5). split; [|done].
      apply ns_wf_alt. split_and!; [by apply F4|rewrite F1; done|]. intros j. unfold listed. rewrite F1, F5. left. by apply X3.
    - destruct (ns_sockets s !! id) as [a|] eqn:E; [|done]. destruct (sock_leave_list_fields true [r] a s) as (F1&F2&F3&F4&F5). cbn [sock_leave_list foldl] in *. split; [|done].
      apply ns_wf_alt. split_and!; [by apply F4|rewrite F1; done|]. intros j. unfold listed. rewrite F1, F5. by apply X3.
    - destruct (ns_sockets s !! id) as [a|] eqn:E; [|done]. destruct (X2 _ _ E) as [Ea Ec].
      destruct (sock_close_fields true (λ _, o) a s) as (F1&F2&F3&F4&F5); [intros _; by eapply Ho|done|]. split; [|done].
      apply ns_wf_alt. split_and!; [done| |].
      + intros j b. rewrite F1. intros [_ Hb]%lookup_delete_Some. by apply X2.
      + intros j. unfold listed. rewrite F1, F5. intros [b [Hne Hb]%lookup_delete_Some]. split; [apply X3; by exists b|congruence].
  Qed.

  Definition tag_writes (nd : node) (tag : nat) : list (sid * list value) := omap (λ w : sid * (nat * list value), if decide (w.2.1 = tag) then Some (w.1, w.2.2) else None) (ns_written nd).
  Lemma tag_fmap (l : list sid) tag tag' (d : list value) : omap (λ w : sid * (nat * list value), if decide (w.2.1 = tag) then Some (w.1, w.2.2) else None) ((λ id, (id, (tag', d))) <$> l) =
    if decide (tag' = tag) then (λ id, (id, d)) <$> l else [].
  Proof. induction l as [|x l IH]; csimpl; [by case_decide|]. rewrite IH. case_decide; done. Qed.

  Lemma base_op_wf tag g opts off os s : orders_ok os → ns_wf s → ns_wf (base_op csr tag g opts off os s) ∧
    ∃ l, ns_written (base_op csr tag g opts off os s) = ns_written s ++ l ∧ (∀ w, w ∈ l → w.2.1 = tag).
  Proof.
    intros Ho Hwf. destruct g as [ty ack data|rs|rs|]; cbn [base_op].
    - match goal with |- context [broadcast (tag, ?d) _ _ _] => destruct (broadcast_spec (tag, d) os opts s Ho Hwf) as (l&_&_&->) end.
      split; [exact Hwf|]. eexists. split; [done|]. intros w. rewrite elem_of_list_fmap. by intros (?&->&_).
    - destruct (add_sockets_spec os opts rs s Ho Hwf) as (_&_&->&?). split; [done|]. exists []. rewrite app_nil_r. split; [done|]. intros w Hw. by apply elem_of_nil in Hw.
    - destruct (del_sockets_spec true os opts rs s Ho Hwf) as (_&_&->&?). split; [done|]. exists []. rewrite app_nil_r. split; [done|]. intros w Hw. by apply elem_of_nil in Hw.
    - destruct (disconnect_sockets_spec true os opts s Ho Hwf) as (_&_&->&?). split; [done|]. exists []. rewrite app_nil_r. split; [done|]. intros w Hw. by apply elem_of_nil in Hw.
  Qed.
  Lemma base_op_bulk tag g opts off os s : orders_ok os → ns_wf s → (∀ ty ack data, g ≠ GBroadcast ty ack data) → bulk_effect g opts s (base_op csr tag g opts off os s).
  Proof.
    intros Ho Hwf Hg. unfold bulk_effect. destruct g as [ty ack data|rs|rs|]; cbn [base_op].
    - by destruct (Hg ty ack data).
    - destruct (add_sockets_spec os opts rs s Ho Hwf) as (?&?&?&?). done.
    - destruct (del_sockets_spec true os opts rs s Ho Hwf) as (?&?&?&?). done.
    - destruct (disconnect_sockets_spec true os opts s Ho Hwf) as (?&?&?&?). done.
  Qed.

  (** The invariant of all runs. *)
  Record cinv (s : cluster) : Prop := {
    ci_dom : dom (cl_nodes s) = uids;
    ci_wf : ∀ n nd, cl_nodes s !! n = Some nd → ns_wf nd;
    ci_net : ∀ d m, (d, m) ∈ cl_net s → d ∈ uids ∧ cm_tag m < cl_step s;
    ci_written : ∀ n nd w, cl_nodes s !! n = Some nd → w ∈ ns_written nd → w.2.1 < cl_step s
  }.
  Lemma on_node_inv n f s : cinv s → (∀ nd, cl_nodes s !! n = Some nd → ns_wf nd → ns_wf (f nd) ∧ ∃ l, ns_written (f nd) = ns_written nd ++ l ∧ ∀ w, w ∈ l → w.2.1 < S (cl_step s)) →
    cinv (Cl (cl_nodes (on_node n f s)) (cl_net s) (S (cl_step s))).
  Proof.
    intros [I1 I2 I3 I4] Hf. split; cbn [on_node cl_nodes cl_net cl_step].
    - by rewrite dom_alter_L.
    - intros k nd. rewrite lookup_alter_Some. intros [(<-&nd0&E&->)|[_ E]]; [apply Hf; [done|by eapply I2]|by eapply I2].
    - intros d m H. apply I3 in H as [? ?]. split; [done|lia].
    - intros k nd w. rewrite lookup_alter_Some. intros [(<-&nd0&E&->)|[_ E]] Hw; [|specialize (I4 _ _ _ E Hw); lia].
      destruct (Hf nd0 E) as [_ (l&El&Hl)]; [by eapply I2|]. rewrite El in Hw. apply elem_of_app in Hw as [Hw|Hw]; [specialize (I4 _ _ _ E Hw); lia|by apply Hl].
  Qed.
  Lemma step_net s : cinv s → cinv (Cl (cl_nodes s) (cl_net s) (S (cl_step s))).
  Proof. intros [I1 I2 I3 I4]. split; cbn; try done; [intros d m H; apply I3 in H as [? ?]; split; [done|lia]|intros n nd w H1 H2; specialize (I4 _ _ _ H1 H2); lia]. Qed.
  Lemma base_op_on tag g opts off os s nd : orders_ok os → tag < S (cl_step s) → ns_wf nd → ns_wf (base_op csr tag g opts off os nd) ∧
    ∃ l, ns_written (base_op csr tag g opts off os nd) = ns_written nd ++ l ∧ ∀ w, w ∈ l → w.2.1 < S (cl_step s).
  Proof.
    intros Ho Ht Hwf. destruct (base_op_wf tag g opts off os nd Ho Hwf) as [H1 (l&H2&H3)]. split; [done|]. exists l. split; [done|]. intros w Hw. apply H3 in Hw. lia.
  Qed.
  Lemma cstep_inv op s : cop_ok uids op → cinv s → cinv (cstep csr s op).
  Proof.
    intros Hop Hi. pose proof Hi as [I1 I2 I3 I4]. unfold cstep. destruct op as [n g opts pub echo e1 e2 os|i os|n l]; cbn [cstep_body].
    - destruct Hop as (Hn&O1&O2&Ho). unfold call. destruct (is_local opts).
      { apply (on_node_inv n _ s); [done|]. intros nd E Hwf. (apply base_op_on; [done|lia|done]). }
      destruct pub as [off|].
      + unfold publish. set (s1 := Cl (cl_nodes s) (cl_net s ++ _) (cl_step s)).
        assert (cinv (Cl (cl_nodes s) (cl_net s1) (S (cl_step s)))) as Hi1.
        { split; cbn; [done|done| |intros k nd w H1 H2; specialize (I4 _ _ _ H1 H2); lia].
          intros d m [H|H]%elem_of_app; [apply I3 in H as [? ?]; split; [done|lia]|]. apply elem_of_list_fmap in H as (x&[= -> ->]&Hx). cbn. split; [|lia].
          rewrite elem_of_elements in Hx. rewrite <- I1. destruct echo; set_solver. }
        destruct Hi1 as [J1 J2 J3 J4]. split; cbn [on_node cl_nodes cl_net cl_step] in *.
        * by rewrite dom_alter_L.
        * intros k nd. rewrite lookup_alter_Some. intros [(<-&nd0&E&->)|[_ E]]; [|by eapply I2]. eapply base_op_wf; [done|by eapply I2].
        * exact J3.
        * intros k nd w. rewrite lookup_alter_Some. intros [(<-&nd0&E&->)|[_ E]] Hw; [|specialize (I4 _ _ _ E Hw); lia].
          destruct (base_op_on (cl_step s) g opts (Some off) os s nd0 Ho) as [_ (l&El&Hl)]; [cbn; lia|by eapply I2|]. rewrite El in Hw. apply elem_of_app in Hw as [Hw|Hw]; [specialize (I4 _ _ _ E Hw); lia|by apply Hl].
      + destruct g as [ty ack data|rs|rs|]; [by apply step_net|apply (on_node_inv n _ s); [done|]; intros nd E Hwf; (apply base_op_on; [done|lia|done])..].
    - destruct (cl_net s !! i) as [[d m]|] eqn:E; [|by apply step_net]. set (s1 := Cl (cl_nodes s) (delete i (cl_net s)) (cl_step s)).
      assert (cinv s1) as Hi1. { split; cbn; [done|done| |done]. intros d' m' H. apply I3. eapply elem_of_submseteq; [exact H|]. apply submseteq_delete. }
      unfold on_message. destruct (decide _); [by apply (step_net s1)|]. apply (on_node_inv d _ s1); [done|]. intros nd En Hwf. apply base_op_on; [done| |done].
      apply elem_of_list_lookup_2, I3 in E as [_ ?]. cbn. lia.
    - apply (on_node_inv n _ s); [done|]. intros nd E Hwf. destruct (local_op_wf l nd) as [H1 H2]; [|done|]; [intros id o ->; done|]. split; [done|]. exists []. rewrite app_nil_r. split; [done|]. intros w Hw. by apply elem_of_nil in Hw.
  Qed.
  Lemma crun_inv h : Forall (cop_ok uids) h → cinv (run h) ∧ cl_step (run h) = length h.
  Proof.
    induction h as [|op h IH] using rev_ind; intros Hh.
    - split; [|done]. split; unfold crun, cinit; cbn.
      + by rewrite dom_gset_to_gmap.
      + intros n nd. rewrite lookup_gset_to_gmap_Some. intros [_ <-]. split_and!; [|done|done|intros ? [? H]; done].
        intros id r. unfold in_room, members_of, rooms_of. cbn. rewrite !lookup_empty. cbn. set_solver.
      + intros d m H. by apply elem_of_nil in H.
      + intros n nd w. rewrite lookup_gset_to_gmap_Some. intros [_ <-] H. by apply elem_of_nil in H.
    - apply Forall_app in Hh as [Hh Hop]. rewrite Forall_singleton in Hop. destruct (IH Hh) as [H1 H2]. rewrite crun_snoc. split; [by apply cstep_inv|]. rewrite app_length. cbn. rewrite H2. lia.
  Qed.

  (** Steps and the copies in flight. *)
  Lemma in_flight_app (l : list (string * cmsg)) k m tag : length (filter (λ x, x.1 = m ∧ cm_tag x.2 = tag) (l ++ k)) = length (filter (λ x, x.1 = m ∧ cm_tag x.2 = tag) l) + length (filter (λ x, x.1 = m ∧ cm_tag x.2 = tag) k).
  Proof. by rewrite filter_app, app_length. Qed.
  Lemma publish_count (x : cmsg) (l : list string) m tag : NoDup l → length (filter (λ x, x.1 = m ∧ cm_tag x.2 = tag) ((λ d, (d, x)) <$> l)) = if decide (m ∈ l ∧ cm_tag x = tag) then 1 else 0.
  Proof.
    induction l as [|d l IH]; intros Hnd; [rewrite decide_False; [done|]; intros [H _]; by apply elem_of_nil in H|]. apply NoDup_cons in Hnd as [Hn Hnd]. specialize (IH Hnd). csimpl. rewrite filter_cons.
    destruct (decide ((d, x).1 = m ∧ cm_tag (d, x).2 = tag)) as [[E1 E2]|H]; cbn in *.
    - subst m. rewrite IH, decide_False by tauto. rewrite decide_True; [done|]. split; [by left|done].
    - rewrite IH. destruct (decide (m ∈ l ∧ _)) as [[? ?]|H2]; [rewrite decide_True; [done|]; split; [by right|done]|]. rewrite decide_False; [done|]. intros [[->|?]%elem_of_cons ?]; tauto.
  Qed.
  Lemma delete_count (l : list (string * cmsg)) i m tag : length (filter (λ x, x.1 = m ∧ cm_tag x.2 = tag) (delete i l)) + (match l !! i with Some (d, x) => if decide (d = m ∧ cm_tag x = tag) then 1 else 0 | None => 0 end) = length (filter (λ x, x.1 = m ∧ cm_tag x.2 = tag) l).
  Proof.
    destruct (l !! i) as [[d x]|] eqn:E.
    - rewrite <- (take_drop_middle _ _ _ E) at 2. rewrite delete_take_drop, !in_flight_app. rewrite filter_cons. cbn [fst snd]. destruct (decide (d = m ∧ _)); cbn; lia.
    - rewrite delete_take_drop. apply lookup_ge_None in E. rewrite take_ge, drop_ge, app_nil_r by lia. lia.
  Qed.
  Lemma step_count op s m tag : cinv s → cop_ok uids op → in_flight (cstep csr s op) m tag + (if decide (delivers s op m tag) then 1 else 0) =
    in_flight s m tag + match op with
      | CCall n g opts (Some off) echo _ _ _ => if decide (is_local opts = false ∧ tag = cl_step s ∧ m ∈ uids ∧ (echo = true ∨ m ≠ n)) then 1 else 0
      | _ => 0 end.
  Proof.
    intros Hi Hop. unfold cstep, in_flight. destruct op as [n g opts pub echo e1 e2 os|i os|n l]; cbn [cstep_body cl_net]; destruct (decide (delivers _ _ _ _)) as [D|D]; cbn [delivers] in D; try done.
    - unfold call. destruct (is_local opts) eqn:El; [destruct pub; [rewrite decide_False by naive_solver|]; cbn [on_node cl_net]; lia|].
      destruct pub as [off|]; [|destruct g; cbn [on_node cl_net]; lia]. cbn [on_node publish cl_net]. rewrite in_flight_app, publish_count by apply NoDup_elements. cbn [cm_tag].
      rewrite Nat.add_0_r. f_equal. set (X := if echo then _ else _).
      assert (m ∈ X ↔ m ∈ uids ∧ (echo = true ∨ m ≠ n)) as HX by (unfold X; rewrite (ci_dom _ Hi); destruct echo; set_solver).
      destruct (decide (m ∈ elements X ∧ _)) as [[H1 H2]|H1], (decide (_ ∧ tag = _ ∧ _)) as [H3|H3]; try done; exfalso; rewrite elem_of_elements, HX in H1; [apply H3|apply H1]; naive_solver.
    -
      destruct (cl_net s !! i) as [[d x]|] eqn:E; [|done].
      assert (cl_net (on_message csr d x os (Cl (cl_nodes s) (delete i (cl_net s)) (cl_step s))) = delete i (cl_net s)) as -> by (unfold on_message; by destruct (decide _)).
      pose proof (delete_count (cl_net s) i m tag) as H. rewrite E in H. rewrite decide_True in H by done. lia.
    -
      destruct (cl_net s !! i) as [[d x]|] eqn:E; [|lia].
      assert (cl_net (on_message csr d x os (Cl (cl_nodes s) (delete i (cl_net s)) (cl_step s))) = delete i (cl_net s)) as -> by (unfold on_message; by destruct (decide _)).
      pose proof (delete_count (cl_net s) i m tag) as H. rewrite E in H. rewrite decide_False in H by done. lia.
  Qed.
  Lemma no_future s m tag : cinv s → cl_step s ≤ tag → in_flight s m tag = 0.
  Proof.
    intros Hi Ht. unfold in_flight. apply length_zero_iff_nil. apply elem_of_nil_inv. intros [d x]. rewrite elem_of_list_filter. cbn. intros [[-> E] Hin]. apply (ci_net _ Hi) in Hin as [_ ?]. lia.
  Qed.

  Lemma deliveries_snoc before h op m tag : deliveries csr uids before (h ++ [op]) m tag =
    deliveries csr uids before h m tag + if decide (delivers (run (before ++ h)) op m tag) then 1 else 0.
  Proof.
    revert before. induction h as [|x h IH]; intros before; cbn [app deliveries]; [rewrite app_nil_r; lia|]. rewrite IH. rewrite <- app_assoc. cbn [app]. lia.
  Qed.
  (** Every copy published is in flight or was delivered. *)
  Lemma fate h1 h2 m k : Forall (cop_ok uids) (h1 ++ h2) → k < length h1 →
    in_flight (run (h1 ++ h2)) m k + deliveries csr uids h1 h2 m k = in_flight (run h1) m k.
  Proof.
    intros Hh Hk. induction h2 as [|op h2 IH] using rev_ind; [rewrite app_nil_r; cbn; lia|].
    rewrite app_assoc in Hh |- *. apply Forall_app in Hh as [Hh Hop]. rewrite Forall_singleton in Hop. specialize (IH Hh). destruct (crun_inv _ Hh) as [Hi Hl].
    rewrite deliveries_snoc, crun_snoc. pose proof (step_count op (run (h1 ++ h2)) m k Hi Hop) as Hs. rewrite app_length in Hl.
    destruct op as [n g opts pub echo e1 e2 os| |]; [destruct pub; [rewrite (decide_False (P := _ ∧ _)) in Hs by lia|]|..]; lia.
  Qed.
  Lemma fate_call h1 n g opts pub echo e1 e2 os h2 m : let op := CCall n g opts pub echo e1 e2 os in
    Forall (cop_ok uids) (h1 ++ op :: h2) →
    in_flight (run (h1 ++ op :: h2)) m (length h1) + deliveries csr uids (h1 ++ [op]) h2 m (length h1) =
    if decide (is_local opts = false ∧ is_Some pub ∧ m ∈ uids ∧ (echo = true ∨ m ≠ n)) then 1 else 0.
  Proof.
    intros op Hh. replace (h1 ++ op :: h2) with ((h1 ++ [op]) ++ h2) in * by (by rewrite <- app_assoc). rewrite fate; [|done|rewrite app_length; cbn; lia].
    apply Forall_app in Hh as [Hh _]. apply Forall_app in Hh as [Hh Hop]. rewrite Forall_singleton in Hop. destruct (crun_inv _ Hh) as [Hi Hl]. rewrite crun_snoc.
    pose proof (step_count op (run h1) m (length h1) Hi Hop) as Hs. rewrite (no_future _ m (length h1) Hi) in Hs by lia. cbn [op] in Hs.
    destruct (decide (delivers _ _ _ _)) as [[]|_]. rewrite Nat.add_0_r in Hs. rewrite Hs. destruct pub as [off|].
    - destruct (decide (_ ∧ _ ∧ _)) as [?|N], (decide (_ ∧ _ ∧ _)) as [?|N2]; try done; exfalso; [apply N2|apply N]; naive_solver.
    - rewrite decide_False; [done|]. intros (_&[? ?]&_). done.
  Qed.

  Lemma net_step op s d x : (d, x) ∈ cl_net (cstep csr s op) → (d, x) ∈ cl_net s ∨
    ∃ n g opts off echo e1 e2 os, op = CCall n g opts (Some off) echo e1 e2 os ∧ x = CMsg n (cl_step s) g (encode_options e1 e2 opts) off.
  Proof.
    unfold cstep. cbn [cl_net]. destruct op as [n g opts pub echo e1 e2 os|i os|n l]; cbn [cstep_body].
    - unfold call. destruct (is_local opts); [by left|]. destruct pub as [off|]; [|destruct g; by left]. cbn [on_node publish cl_net].
      intros [H|H]%elem_of_app; [by left|right]. apply elem_of_list_fmap in H as (?&[= -> ->]&_). naive_solver.
    - destruct (cl_net s !! i) as [[d' m]|]; [|by left]. unfold on_message. intros H. left.
      assert ((d, x) ∈ delete i (cl_net s)) as H' by (by destruct (decide _)). eapply elem_of_submseteq; [exact H'|]. apply submseteq_delete.
    - by left.
  Qed.
  Lemma content h1 n g opts off echo e1 e2 os h2 d x : let op := CCall n g opts (Some off) echo e1 e2 os in
    Forall (cop_ok uids) (h1 ++ op :: h2) → (d, x) ∈ cl_net (run (h1 ++ op :: h2)) → cm_tag x = length h1 →
    x = CMsg n (length h1) g (encode_options e1 e2 opts) off.
  Proof.
    intros op. induction h2 as [|op' h2 IH] using rev_ind; intros Hh Hin Ht.
    - apply Forall_app in Hh as [Hh _]. destruct (crun_inv _ Hh) as [Hi Hl]. rewrite crun_snoc in Hin. apply net_step in Hin as [Hin|(n'&g'&opts'&off'&echo'&e1'&e2'&os'&E&->)].
      + apply (ci_net _ Hi) in Hin as [_ ?]. lia.
      + injection E as <- <- <- <- <- <- <-. by rewrite Hl.
    - change (h1 ++ op :: h2 ++ [op']) with (h1 ++ (op :: h2) ++ [op']) in *. rewrite app_assoc in Hh, Hin. apply Forall_app in Hh as [Hh _]. destruct (crun_inv _ Hh) as [Hi Hl].
      rewrite crun_snoc in Hin. apply net_step in Hin as [Hin|(n'&g'&opts'&off'&echo'&e1'&e2'&os'&E&->)]; [by apply IH|]. cbn [cm_tag] in Ht. rewrite Hl, app_length in Ht. cbn in Ht. lia.
  Qed.

  (** What a step does to the servers. *)
  Lemma deliver_nodes s i os d x : cl_net s !! i = Some (d, x) → cm_uid x ≠ d →
    cl_nodes (cstep csr s (CDeliver i os)) = alter (base_op csr (cm_tag x) (cm_op x) (Some (decode_options (Some (cm_opts x)))) (Some (cm_offset x)) os) d (cl_nodes s).
  Proof. intros E Hne. unfold cstep. cbn [cstep_body]. rewrite E. unfold on_message. rewrite decide_False by done. done. Qed.
  Lemma deliver_self s i os d x : cl_net s !! i = Some (d, x) → cm_uid x = d → cl_nodes (cstep csr s (CDeliver i os)) = cl_nodes s.
  Proof. intros E Hne. unfold cstep. cbn [cstep_body]. rewrite E. unfold on_message. rewrite decide_True by done. done. Qed.
  Lemma call_nodes s n g opts pub echo e1 e2 os : is_local opts = true ∨ is_Some pub ∨ (∀ ty ack data, g ≠ GBroadcast ty ack data) →
    cl_nodes (cstep csr s (CCall n g opts pub echo e1 e2 os)) = alter (base_op csr (cl_step s) g opts (if is_local opts then None else pub) os) n (cl_nodes s).
  Proof.
    intros H. unfold cstep. cbn [cstep_body]. unfold call. destruct (is_local opts); [done|]. destruct pub as [off|]; [done|]. destruct g as [ty ack data| | |]; try done. destruct H as [?|[[? ?]|H]]; [done|done|]. by destruct (H ty ack data).
  Qed.
  Lemma call_failed s n ty ack data opts echo e1 e2 os : is_local opts = false →
    cl_nodes (cstep csr s (CCall n (GBroadcast ty ack data) opts None echo e1 e2 os)) = cl_nodes s.
  Proof. intros H. unfold cstep. cbn [cstep_body]. unfold call. by rewrite H. Qed.

  Lemma tag_writes_app (nd nd' : node) l tag : ns_written nd' = ns_written nd ++ l → (∀ w, w ∈ l → w.2.1 ≠ tag) → tag_writes nd' tag = tag_writes nd tag.
  Proof.
    intros E Hl. unfold tag_writes. rewrite E, omap_app. clear E. assert (omap (λ w : sid * (nat * list value), if decide (w.2.1 = tag) then Some (w.1, w.2.2) else None) l = []) as ->; [|by rewrite app_nil_r].
    induction l as [|w l IH]; csimpl; [done|]. rewrite decide_False by (apply Hl; by left). apply IH. intros w' Hw'. apply Hl. by right.
  Qed.
  Lemma writes_nodes s s' m tag : cl_nodes s = cl_nodes s' → writes s m tag = writes s' m tag.
  Proof. unfold writes. by intros ->. Qed.
  Lemma writes_lookup s m nd tag : cl_nodes s !! m = Some nd → writes s m tag = tag_writes nd tag.
  Proof. intros E. unfold writes. by rewrite E. Qed.
  (** A step that is not a delivery to [m] of an earlier call adds nothing to its writes. *)
  Lemma writes_frame op s m tag : cinv s → cop_ok uids op → tag < cl_step s → ¬ delivers s op m tag → writes (cstep csr s op) m tag = writes s m tag.
  Proof.
    intros Hi Hop Ht Hd. destruct (cl_nodes s !! m) as [nd|] eqn:E.
    2:{ assert (cl_nodes (cstep csr s op) !! m = None) as E'. { apply not_elem_of_dom. rewrite (ci_dom _ (cstep_inv op s Hop Hi)), <- (ci_dom _ Hi). by apply not_elem_of_dom. } unfold writes. by rewrite E, E'. }
    rewrite (writes_lookup s m nd tag E). pose proof (ci_wf _ Hi _ _ E) as Hwf.
    assert (∀ n f, cl_nodes (cstep csr s op) = alter f n (cl_nodes s) → (n = m → tag_writes (f nd) tag = tag_writes nd tag) → writes (cstep csr s op) m tag = tag_writes nd tag) as Hcase.
    { intros n f En Hf. destruct (decide (n = m)) as [->|Hne].
      - rewrite (writes_lookup _ m (f nd)); [by apply Hf|]. by rewrite En, lookup_alter, E.
      - apply writes_lookup. by rewrite En, lookup_alter_ne. }
    destruct op as [n g opts pub echo e1 e2 os|i os|n l].
    - destruct Hop as (_&_&_&Ho). assert ((is_local opts = false ∧ pub = None ∧ ∃ ty ack data, g = GBroadcast ty ack data) ∨ (is_local opts = true ∨ is_Some pub ∨ (∀ ty ack data, g ≠ GBroadcast ty ack data))) as [(H1&->&ty&ack&data&->)|Hn].
      { destruct (is_local opts); [tauto|]. destruct pub; [right; right; left; eauto|]. destruct g; [left; eauto 10|right; right; right; done..]. }
      { by rewrite (writes_nodes _ _ _ _ (call_failed s n ty ack data opts echo e1 e2 os H1)), (writes_lookup s m nd). }
      eapply Hcase.
      + by apply call_nodes.
      + intros ->. destruct (base_op_wf (cl_step s) g opts (if is_local opts then None else pub) os nd Ho Hwf) as [_ (l&El&Hl)]. eapply tag_writes_app; [exact El|]. intros w Hw. apply Hl in Hw. lia.
    - cbn [delivers] in Hd. destruct (cl_net s !! i) as [[d x]|] eqn:Ex.
      + destruct (decide (cm_uid x = d)) as [Eu|Eu]; [rewrite (writes_nodes _ _ _ _ (deliver_self s i os d x Ex Eu)); by apply writes_lookup|].
        eapply Hcase; [by apply deliver_nodes|]. intros ->.
        destruct (base_op_wf (cm_tag x) (cm_op x) (Some (decode_options (Some (cm_opts x)))) (Some (cm_offset x)) os nd Hop Hwf) as [_ (l&El&Hl)]. eapply tag_writes_app; [exact El|]. intros w Hw. apply Hl in Hw. intros E'. apply Hd. split; [done|congruence].
      + unfold cstep. cbn [cstep_body]. rewrite Ex. by apply writes_lookup.
    - eapply Hcase; [reflexivity|]. intros ->. destruct (local_op_wf l nd) as [_ H2]; [intros id o ->; exact Hop|done|]. unfold tag_writes. by rewrite H2.
  Qed.
  Lemma writes_future s m tag : cinv s → cl_step s ≤ tag → writes s m tag = [].
  Proof.
    intros Hi Ht. unfold writes. destruct (cl_nodes s !! m) as [nd|] eqn:E; [|done]. pose proof (λ w, ci_written _ Hi m nd w E) as H. clear E. revert H. generalize (ns_written nd).
    intros l Hl. induction l as [|w l IH]; csimpl; [done|]. rewrite decide_False; [apply IH; intros w' Hw'; apply Hl; by right|]. specialize (Hl w ltac:(by left)). lia.
  Qed.
  Lemma writes_stable h1 h2 m tag : Forall (cop_ok uids) (h1 ++ h2) → tag < length h1 → deliveries csr uids h1 h2 m tag = 0 → writes (run (h1 ++ h2)) m tag = writes (run h1) m tag.
  Proof.
    intros Hh Ht. induction h2 as [|op h2 IH] using rev_ind; [by rewrite app_nil_r|]. rewrite deliveries_snoc. intros Hd.
    rewrite app_assoc in Hh |- *. apply Forall_app in Hh as [Hh Hop]. rewrite Forall_singleton in Hop. destruct (crun_inv _ Hh) as [Hi Hl]. rewrite app_length in Hl.
    destruct (decide _) as [|Hn]; [lia|]. rewrite crun_snoc, writes_frame; [apply IH; [done|lia]|done|done|lia|done].
  Qed.
  Lemma deliveries_split h1 h2 m tag : deliveries csr uids h1 h2 m tag ≠ 0 → ∃ a op b, h2 = a ++ op :: b ∧ delivers (run (h1 ++ a)) op m tag ∧
    deliveries csr uids h1 h2 m tag = S (deliveries csr uids h1 a m tag + deliveries csr uids (h1 ++ a ++ [op]) b m tag).
  Proof.
    revert h1. induction h2 as [|op h2 IH]; intros h1; cbn [deliveries]; [done|]. destruct (decide _) as [D|D]; intros Hn.
    - exists [], op, h2. rewrite app_nil_r. split; [done|]. split; [done|]. done.
    - destruct (IH (h1 ++ [op])) as (a&op'&b&->&Hd&E); [lia|]. exists (op :: a), op', b. split; [done|]. rewrite <- app_assoc in Hd. split; [exact Hd|]. rewrite E. cbn [deliveries app]. rewrite <- app_assoc. rewrite decide_False by done. done.
  Qed.

  Lemma add_offset_spec ty ack data opts off : with_offset csr ty ack data opts off (add_offset csr ty ack data opts off).
  Proof.
    unfold with_offset, add_offset, volatile_opts.
    set (v := match opts with Some o => match bo_flags o with Some f => fl_volatile f | None => false end | None => false end).
    assert (v = true ↔ ∃ o f, opts = Some o ∧ bo_flags o = Some f ∧ fl_volatile f = true) as Hv.
    { unfold v. destruct opts as [[rs ex [f|]]|]; cbn; naive_solver. }
    destruct csr, v, ack; cbn; try (destruct (decide (ty = EVENT)) as [->|]; [|rewrite ?bool_decide_eq_false_2 by done]); cbn; naive_solver.
  Qed.
  Lemma local_opts_iff opts : is_local opts = true ↔ local_opts opts.
  Proof. unfold is_local, local_opts. destruct opts as [[rs ex [f|]]|]; cbn; naive_solver. Qed.
  Lemma add_offset_hop ty ack data opts off e1 e2 : add_offset csr ty ack data (Some (decode_options (Some (encode_options e1 e2 opts)))) off = add_offset csr ty ack data opts off.
  Proof. unfold add_offset. by destruct opts as [[rs ex f]|]. Qed.
  Lemma broadcast_writes tag (d : list value) os opts nd : orders_ok os → ns_wf nd → tag_writes nd tag = [] → ∃ l, NoDup l ∧ (∀ id, id ∈ l ↔ matches nd (opt_rooms opts) (opt_except opts) id) ∧
    tag_writes (broadcast (tag, d) os opts nd) tag = (λ id, (id, d)) <$> l.
  Proof.
    intros Ho Hwf E. destruct (broadcast_spec (tag, d) os opts nd Ho Hwf) as (l&H1&H2&->). exists l. split; [done|]. split; [done|].
    unfold tag_writes in *. cbn [ns_written]. rewrite omap_app, E, tag_fmap, decide_True by done. done.
  Qed.

  Lemma cluster_broadcast h1 n ty ack data opts off echo e1 e2 os h2 :
    let op := CCall n (GBroadcast ty ack data) opts (Some off) echo e1 e2 os in
    let k := length h1 in
    let final := run (h1 ++ op :: h2) in
    Forall (cop_ok uids) (h1 ++ op :: h2) → ¬ local_opts opts →
    ∃ d, with_offset csr ty ack data opts off d ∧
      (* the emitting server *)
      (∃ nd l, cl_nodes (run h1) !! n = Some nd ∧ NoDup l ∧ (∀ id, id ∈ l ↔ matches nd (opt_rooms opts) (opt_except opts) id) ∧ writes final n k = (λ id, (id, d)) <$> l) ∧
      (* every other server *)
      (∀ m, m ∈ uids → m ≠ n →
        (in_flight final m k = 1 ∧ deliveries csr uids (h1 ++ [op]) h2 m k = 0 ∧ writes final m k = []) ∨
        (in_flight final m k = 0 ∧ deliveries csr uids (h1 ++ [op]) h2 m k = 1 ∧
          ∃ a op' b nd l, h2 = a ++ op' :: b ∧ delivers (run (h1 ++ op :: a)) op' m k ∧ cl_nodes (run (h1 ++ op :: a)) !! m = Some nd ∧
            NoDup l ∧ (∀ id, id ∈ l ↔ matches nd (opt_rooms opts) (opt_except opts) id) ∧ writes final m k = (λ id, (id, d)) <$> l)).
  Proof.
    intros op k final Hh Hl. assert (is_local opts = false) as Eloc by (destruct (is_local opts) eqn:E; [by apply local_opts_iff in E|done]).
    assert (h1 ++ op :: h2 = (h1 ++ [op]) ++ h2) as Eh by (by rewrite <- app_assoc).
    exists (add_offset csr ty ack data opts off). split; [apply add_offset_spec|].
    pose proof Hh as Hh'. rewrite Eh in Hh'. apply Forall_app in Hh' as [Hh1 Hh2]. pose proof Hh1 as Hh1'. apply Forall_app in Hh1' as [Hh0 Hop]. rewrite Forall_singleton in Hop.
    destruct (crun_inv _ Hh0) as [Hi0 Hl0]. destruct (crun_inv _ Hh1) as [Hi1 Hl1]. pose proof Hop as (Hn&O1&O2&Ho).
    assert (length (h1 ++ [op]) = S k) as Elen by (rewrite app_length; cbn; unfold k; lia).
    assert (cl_nodes (run (h1 ++ [op])) = alter (base_op csr k (GBroadcast ty ack data) opts (Some off) os) n (cl_nodes (run h1))) as En.
    { rewrite crun_snoc. unfold op. rewrite call_nodes by (right; left; eauto). by rewrite Eloc, Hl0. }
    (* the writes of a server after a delivery of the message *)
    assert (∀ m a i os' b x nd, h2 = a ++ CDeliver i os' :: b → cl_net (run (h1 ++ op :: a)) !! i = Some (m, x) → cm_tag x = k → cl_nodes (run (h1 ++ op :: a)) !! m = Some nd → m ≠ n → tag_writes nd k = [] →
      ∃ l, NoDup l ∧ (∀ id, id ∈ l ↔ matches nd (opt_rooms opts) (opt_except opts) id) ∧ writes (run (h1 ++ op :: a ++ [CDeliver i os'])) m k = (λ id, (id, add_offset csr ty ack data opts off)) <$> l) as Hdel.
    { intros m a i os' b x nd -> Ex Etag End Hne Hw.
      assert (Forall (cop_ok uids) ((h1 ++ op :: a) ++ [CDeliver i os'])) as Hha. { apply (Forall_app _ _ b). rewrite <- !app_assoc. cbn [app]. exact Hh. }
      apply Forall_app in Hha as [Hha Hop']. rewrite Forall_singleton in Hop'. destruct (crun_inv _ Hha) as [Hia Hla].
      assert (x = CMsg n k (GBroadcast ty ack data) (encode_options e1 e2 opts) off) as -> by (eapply content; [exact Hha|by eapply elem_of_list_lookup_2|done]).
      destruct (opts_rooms_hop e1 e2 opts O1 O2) as (R1&R2&R3).
      destruct (broadcast_writes k (add_offset csr ty ack data opts off) os' (Some (decode_options (Some (encode_options e1 e2 opts)))) nd) as (l&L1&L2&L3); [done|by eapply (ci_wf _ Hia)|done|].
      exists l. rewrite R1, R2 in L2. split; [done|]. split; [done|]. rewrite <- L3. change (h1 ++ op :: a ++ [CDeliver i os']) with (h1 ++ (op :: a) ++ [CDeliver i os']). rewrite app_assoc, crun_snoc.
      erewrite writes_lookup; [reflexivity|]. rewrite (deliver_nodes _ _ _ _ _ Ex) by (cbn; congruence). rewrite lookup_alter, End. cbn [fmap option_fmap option_map cm_op cm_tag cm_opts cm_offset base_op]. by rewrite add_offset_hop. }
    split.
    - assert (is_Some (cl_nodes (run h1) !! n)) as [nd End] by (apply elem_of_dom; by rewrite (ci_dom _ Hi0)).
      assert (tag_writes nd k = []) as Hw0 by (rewrite <- (writes_lookup _ _ _ _ End); apply writes_future; [done|unfold k; lia]).
      destruct (broadcast_writes k (add_offset csr ty ack data opts off) os opts nd Ho (ci_wf _ Hi0 _ _ End) Hw0) as (l&L1&L2&L3).
      exists nd, l. split; [done|]. split; [done|]. split; [done|]. rewrite <- L3.
      (* deliveries of its own message change nothing *)
      unfold final. rewrite Eh. clear Hdel final. clear L3. set (w := tag_writes (broadcast _ _ _ _) k).
      assert (writes (run (h1 ++ [op])) n k = w) as Hw. { erewrite writes_lookup; [|rewrite En, lookup_alter, End; reflexivity]. done. }
      rewrite <- Hw. clear Hw w Hh Eh. induction h2 as [|op' h2 IH] using rev_ind; [by rewrite app_nil_r|]. apply Forall_app in Hh2 as [Hh2 Hop']. rewrite Forall_singleton in Hop'.
      rewrite app_assoc, crun_snoc. specialize (IH Hh2). rewrite <- IH.
      assert (Forall (cop_ok uids) ((h1 ++ [op]) ++ h2)) as Hha by (by apply Forall_app). destruct (crun_inv _ Hha) as [Hia Hla]. rewrite app_length in Hla.
      destruct (decide (delivers (run ((h1 ++ [op]) ++ h2)) op' n k)) as [D|D]; [|apply writes_frame; [done|done|lia|done]].
      destruct op' as [|i os'|]; cbn [delivers] in D; try done. destruct (cl_net (run ((h1 ++ [op]) ++ h2)) !! i) as [[d x]|] eqn:Ex; [|done]. destruct D as [-> Et].
      apply writes_nodes. eapply deliver_self; [exact Ex|]. apply elem_of_list_lookup_2 in Ex. rewrite <- app_assoc in Ex, Hha. cbn [app] in Ex, Hha. by rewrite (content _ _ _ _ _ _ _ _ _ _ _ _ Hha Ex Et).
    - intros m Hm Hne. pose proof (fate_call h1 n (GBroadcast ty ack data) opts (Some off) echo e1 e2 os h2 m Hh) as Hf. fold op in Hf. fold k in Hf. fold final in Hf. rewrite decide_True in Hf by eauto.
      assert (writes (run (h1 ++ [op])) m k = []) as Hw0.
      { assert (is_Some (cl_nodes (run h1) !! m)) as [nd End] by (apply elem_of_dom; by rewrite (ci_dom _ Hi0)).
        erewrite writes_lookup; [|rewrite En, lookup_alter_ne by done; exact End]. rewrite <- (writes_lookup _ _ _ _ End). apply writes_future; [done|unfold k; lia]. }
      destruct (decide (deliveries csr uids (h1 ++ [op]) h2 m k = 0)) as [E0|E0].
      + left. split; [lia|]. split; [done|]. unfold final. rewrite Eh. rewrite writes_stable; [done|by rewrite <- Eh|lia|done].
      + right. split; [lia|]. split; [lia|]. destruct (deliveries_split _ _ _ _ E0) as (a&op'&b&E2&D&Ed). exists a, op', b.
        rewrite <- app_assoc in D. cbn [app] in D. assert (Forall (cop_ok uids) ((h1 ++ op :: a) ++ op' :: b)) as Hha by (rewrite <- app_assoc; cbn [app]; by rewrite <- E2).
        pose proof Hha as Hha'. apply Forall_app in Hha' as [Hha' _]. destruct (crun_inv _ Hha') as [Hia Hla].
        assert (is_Some (cl_nodes (run (h1 ++ op :: a)) !! m)) as [nd End] by (apply elem_of_dom; by rewrite (ci_dom _ Hia)).
        destruct op' as [|i os'|]; cbn [delivers] in D; try done. destruct (cl_net (run (h1 ++ op :: a)) !! i) as [[d' x]|] eqn:Ex; [|done]. destruct D as [-> Et].
        assert (tag_writes nd k = []) as Hwn.
        { rewrite <- (writes_lookup _ _ _ _ End). replace (h1 ++ op :: a) with ((h1 ++ [op]) ++ a) by (by rewrite <- app_assoc). rewrite writes_stable; [done|rewrite <- app_assoc; done|lia|]. lia. }
        destruct (Hdel m a i os' b x nd E2 Ex Et End Hne Hwn) as (l&L1&L2&L3). exists nd, l. split; [done|]. split; [unfold delivers; by rewrite Ex|]. split; [done|]. split; [done|]. split; [done|].
        rewrite <- L3. unfold final. rewrite E2. replace (h1 ++ op :: a ++ CDeliver i os' :: b) with ((h1 ++ op :: a ++ [CDeliver i os']) ++ b) by (by rewrite <- app_assoc; cbn; rewrite <- app_assoc).
        apply writes_stable; [rewrite <- app_assoc; cbn; rewrite <- app_assoc; cbn; by rewrite <- E2|rewrite app_length; cbn; lia|].
        rewrite <- !app_assoc in Ed. cbn [app] in Ed. lia.
  Qed.
  Lemma local_broadcast h1 n ty ack data opts pub echo e1 e2 os h2 :
    let op := CCall n (GBroadcast ty ack data) opts pub echo e1 e2 os in
    let k := length h1 in
    let final := run (h1 ++ op :: h2) in
    Forall (cop_ok uids) (h1 ++ op :: h2) → local_opts opts →
    (∃ nd l, cl_nodes (run h1) !! n = Some nd ∧ NoDup l ∧ (∀ id, id ∈ l ↔ matches nd (opt_rooms opts) (opt_except opts) id) ∧ writes final n k = (λ id, (id, data)) <$> l) ∧
    (∀ m, m ≠ n → writes final m k = []).
  Proof.
    intros op k final Hh Hl. apply local_opts_iff in Hl as Eloc.
    assert (h1 ++ op :: h2 = (h1 ++ [op]) ++ h2) as Eh by (by rewrite <- app_assoc).
    pose proof Hh as Hh'. rewrite Eh in Hh'. apply Forall_app in Hh' as [Hh1 Hh2]. pose proof Hh1 as Hh1'. apply Forall_app in Hh1' as [Hh0 Hop]. rewrite Forall_singleton in Hop.
    destruct (crun_inv _ Hh0) as [Hi0 Hl0]. destruct (crun_inv _ Hh1) as [Hi1 Hl1]. pose proof Hop as (Hn&O1&O2&Ho).
    assert (cl_nodes (run (h1 ++ [op])) = alter (base_op csr k (GBroadcast ty ack data) opts None os) n (cl_nodes (run h1))) as En.
    { rewrite crun_snoc. unfold op. rewrite call_nodes by (by left). by rewrite Eloc, Hl0. }
    assert (∀ m, writes final m k = writes (run (h1 ++ [op])) m k) as Hst.
    { intros m. unfold final. rewrite Eh. apply writes_stable; [by rewrite <- Eh|rewrite app_length; cbn; unfold k; lia|].
      pose proof (fate_call h1 n (GBroadcast ty ack data) opts pub echo e1 e2 os h2 m Hh) as Hf. fold op in Hf. fold k in Hf. rewrite decide_False in Hf by (rewrite Eloc; naive_solver). lia. }
    split.
    - assert (is_Some (cl_nodes (run h1) !! n)) as [nd End] by (apply elem_of_dom; by rewrite (ci_dom _ Hi0)).
      assert (tag_writes nd k = []) as Hw0 by (rewrite <- (writes_lookup _ _ _ _ End); apply writes_future; [done|unfold k; lia]).
      destruct (broadcast_writes k data os opts nd Ho (ci_wf _ Hi0 _ _ End) Hw0) as (l&L1&L2&L3). exists nd, l. split; [done|]. split; [done|]. split; [done|]. rewrite Hst, <- L3.
      erewrite writes_lookup; [|rewrite En, lookup_alter, End; reflexivity]. done.
    - intros m Hne. rewrite Hst. destruct (cl_nodes (run h1) !! m) as [nd|] eqn:End.
      + erewrite writes_lookup; [|rewrite En, lookup_alter_ne by done; exact End]. rewrite <- (writes_lookup _ _ _ _ End). apply writes_future; [done|unfold k; lia].
      + unfold writes. by rewrite En, lookup_alter_ne, End.
  Qed.

  (** ** Bulk operations *)
  Lemma bulk_call h1 n g opts pub echo e1 e2 os :
    let op := CCall n g opts pub echo e1 e2 os in
    Forall (cop_ok uids) (h1 ++ [op]) → (∀ ty ack data, g ≠ GBroadcast ty ack data) →
    (∃ nd nd', cl_nodes (run h1) !! n = Some nd ∧ cl_nodes (run (h1 ++ [op])) !! n = Some nd' ∧ bulk_effect g opts nd nd') ∧
    (∀ m, m ≠ n → cl_nodes (run (h1 ++ [op])) !! m = cl_nodes (run h1) !! m).
  Proof.
    intros op Hh Hg. apply Forall_app in Hh as [Hh0 Hop]. rewrite Forall_singleton in Hop. destruct (crun_inv _ Hh0) as [Hi0 Hl0]. pose proof Hop as (Hn&O1&O2&Ho).
    rewrite crun_snoc. unfold op. rewrite call_nodes by tauto. split.
    - assert (is_Some (cl_nodes (run h1) !! n)) as [nd End] by (apply elem_of_dom; by rewrite (ci_dom _ Hi0)). rewrite lookup_alter, End. eexists _, _. split; [done|]. split; [done|]. apply base_op_bulk; [done|by eapply (ci_wf _ Hi0)|done].
    - intros m Hne. by rewrite lookup_alter_ne.
  Qed.
  Lemma bulk_deliver h1 n g opts off echo e1 e2 os h2 op' m :
    let op := CCall n g opts (Some off) echo e1 e2 os in
    let s := run (h1 ++ op :: h2) in
    let s' := run (h1 ++ op :: h2 ++ [op']) in
    Forall (cop_ok uids) (h1 ++ op :: h2 ++ [op']) → (∀ ty ack data, g ≠ GBroadcast ty ack data) → delivers s op' m (length h1) →
    (m ≠ n → ∃ nd nd', cl_nodes s !! m = Some nd ∧ cl_nodes s' !! m = Some nd' ∧ bulk_effect g opts nd nd') ∧
    (∀ m', m' ≠ m ∨ m = n → cl_nodes s' !! m' = cl_nodes s !! m').
  Proof.
    intros op s s' Hh Hg D. unfold s'. change (h1 ++ op :: h2 ++ [op']) with (h1 ++ (op :: h2) ++ [op']) in *. rewrite app_assoc in Hh |- *. apply Forall_app in Hh as [Hh0 Hop]. rewrite Forall_singleton in Hop.
    destruct (crun_inv _ Hh0) as [Hi0 Hl0]. rewrite crun_snoc. fold s in Hi0, Hl0 |- *.
    destruct op' as [|i os'|]; cbn [delivers] in D; try done. destruct (cl_net s !! i) as [[d x]|] eqn:Ex; [|done]. destruct D as [-> Et].
    assert (x = CMsg n (length h1) g (encode_options e1 e2 opts) off) as -> by (eapply content; [exact Hh0|by eapply elem_of_list_lookup_2|done]).
    apply Forall_app in Hh0 as [_ Hh0]. apply Forall_cons in Hh0 as [(_&O1&O2&_) _]. destruct (opts_rooms_hop e1 e2 opts O1 O2) as (R1&R2&R3).
    destruct (decide (m = n)) as [->|Hne].
    { split; [done|]. intros m' _. by rewrite (deliver_self _ _ _ _ _ Ex). }
    rewrite (deliver_nodes _ _ _ _ _ Ex) by (cbn; congruence). split.
    - intros _. assert (is_Some (cl_nodes s !! m)) as [nd End] by (apply elem_of_dom; rewrite (ci_dom _ Hi0); eapply (ci_net _ Hi0); by eapply elem_of_list_lookup_2).
      rewrite lookup_alter, End. eexists _, _. split; [done|]. split; [done|]. cbn [cm_op cm_tag cm_opts cm_offset].
      pose proof (base_op_bulk (length h1) g (Some (decode_options (Some (encode_options e1 e2 opts)))) (Some off) os' nd Hop (ci_wf _ Hi0 _ _ End) Hg) as B. unfold bulk_effect in *. rewrite R1, R2 in B. exact B.
    - intros m' [Hm'|?]; [|done]. by rewrite lookup_alter_ne.
  Qed.
End proofs.
