(** Proofs about [ClusterAck.v]. *)
From Verif Require Import Base GoTypes Rooms RoomsSpec RoomsProofs Adapter AdapterSpec AdapterProofs Cluster ClusterSpec ClusterProofs BcastAck BcastAckSpec ClusterAck ClusterAckSpec.

(** *** Counting *)
Definition one {A B} (f : A → option B) (x : A) : nat := match f x with Some _ => 1 | None => 0 end.
Lemma omap_snoc {A B} (f : A → option B) l x : omap f (l ++ [x]) = omap f l ++ match f x with Some y => [y] | None => [] end.
Proof. rewrite omap_app. simpl. by destruct (f x). Qed.
Lemma len_snoc {A B} (f : A → option B) l x : length (omap f (l ++ [x])) = length (omap f l) + one f x.
Proof. rewrite omap_snoc, app_length. unfold one. by destruct (f x). Qed.
Lemma len_delete {A B} (f : A → option B) l i x : l !! i = Some x → length (omap f l) = length (omap f (delete i l)) + one f x.
Proof.
  intros H. rewrite <-(take_drop_middle l i x H) at 1. rewrite delete_take_drop, cons_middle, !omap_app, !app_length.
  unfold one. simpl. destruct (f x); cbn [length]; lia.
Qed.
Lemma elem_delete {A} (l : list A) i x : x ∈ delete i l → x ∈ l.
Proof. intros H. eapply elem_of_submseteq; [exact H|]. apply sublist_submseteq, sublist_delete. Qed.

(** *** The base adapter *)
Definition ack_all (k : cont) (pid : nat) (l : list sid) (m : gmap (sid * nat) cont) : gmap (sid * nat) cont :=
  foldl (λ m id, <[(id, pid) := k]> m) m l.
Lemma ack_all_lookup k pid l m i p : ack_all k pid l m !! (i, p) = if decide (p = pid ∧ i ∈ l) then Some k else m !! (i, p).
Proof.
  unfold ack_all. revert m. induction l as [|id l IH]; intros m; simpl.
  { rewrite decide_False; [done|]. intros [_ H]. by apply elem_of_nil in H. }
  rewrite IH. destruct (decide (p = pid ∧ i ∈ l)) as [[-> ?]|Hn].
  { rewrite decide_True; [done|]. split; [done|by right]. }
  destruct (decide ((id, pid) = (i, p))) as [[= -> ->]|Hne].
  - rewrite lookup_insert, decide_True; [done|]. split; [done|by left].
  - rewrite lookup_insert_ne by done. rewrite decide_False; [done|]. intros [-> [->|?]%elem_of_cons]; [done|]. by apply Hn.
Qed.
Definition wrote (tag : nat) (k : cont) (l : list sid) (nd : anode) : anode :=
  ANode (NSpace (ns_reg (an_ns nd)) (ns_sockets (an_ns nd)) (ns_events (an_ns nd)) (ns_written (an_ns nd) ++ ((λ id, (id, (tag, an_ids nd))) <$> l)))
    (S (an_ids nd)) (ack_all k (an_ids nd) l (an_acks nd)) (an_reqs nd).
Lemma base_ack_spec tag k opts os nd : orders_ok os → ns_wf (an_ns nd) →
  ∃ l, NoDup l ∧ (∀ id, id ∈ l ↔ matches (an_ns nd) (opt_rooms opts) (opt_except opts) id) ∧
    base_ack tag k opts os nd = (wrote tag k l nd, length l).
Proof.
  intros (O1 & O2 & O3 & _) Hwf. unfold base_ack.
  set (visit := λ (a : asock) (t : nspace (nat * nat) * gmap (sid * nat) cont * nat), (sock_write (tag, an_ids nd) a t.1.1, <[(as_id a, an_ids nd) := k]> t.1.2, S t.2)).
  set (rooms := match opts with Some o => bo_rooms o | None => Some ∅ end).
  set (except := match opts with Some o => bo_except o | None => Some ∅ end).
  set (s0 := (an_ns nd, an_acks nd, 0)).
  set (gr := λ t : nspace (nat * nat) * gmap (sid * nat) cont * nat, ns_reg t.1.1).
  set (gs := λ t : nspace (nat * nat) * gmap (sid * nat) cont * nat, ns_sockets t.1.1).
  assert (default ∅ rooms = opt_rooms opts) as Er by (by destruct opts).
  assert (default ∅ except = opt_except opts) as Ee by (by destruct opts).
  destruct (apply_spec gr gs visit (λ _, True)) with (orm := o_rooms os) (oid := o_ids os) (oall := o_sids os) (rooms := rooms) (except := except) (s := s0)
    as (H1 & _ & _ & H3); [|done..|].
  { intros s id a _ _. split; [split; done|done]. }
  pose proof (apply_cbs gr gs visit (o_rooms os) (o_ids os) (o_sids os) rooms except s0) as H4.
  set (res := apply_sockets gr gs visit (o_rooms os) (o_ids os) (o_sids os) rooms except s0) in *.
  assert (Hm : ∀ id, id ∈ res.2 ↔ matches (an_ns nd) (opt_rooms opts) (opt_except opts) id).
  { intros id. rewrite H3, Er, Ee. by apply selected_matches. }
  exists res.2. split_and!; [done|done|]. change (apply_sockets _ _ _ _ _ _ _ _ _) with res. rewrite H4.
  assert (Hl : ∀ id, id ∈ res.2 → ∃ a, ns_sockets (an_ns nd) !! id = Some a ∧ as_id a = id).
  { intros id Hid. apply Hm in Hid as [[a Ha] _]. exists a. split; [done|]. destruct Hwf as (_&_&W&_). by apply (W id a). }
  clear H1 H3 H4 Hm. generalize dependent (res.2). clear res. intros l Hl.
  assert (∀ (t : nspace (nat * nat) * gmap (sid * nat) cont * nat), ns_sockets t.1.1 = ns_sockets (an_ns nd) →
    run_cbs gs visit l t = (NSpace (ns_reg t.1.1) (ns_sockets t.1.1) (ns_events t.1.1) (ns_written t.1.1 ++ ((λ id, (id, (tag, an_ids nd))) <$> l)), ack_all k (an_ids nd) l t.1.2, t.2 + length l)) as Hrun.
  { clear s0. revert Hl. induction l as [|id l IH]; intros Hl t Ht; simpl.
    - destruct t as [[[]]]. simpl. by rewrite app_nil_r, Nat.add_0_r.
    - destruct (Hl id) as (a & Ha & Hid); [by left|]. assert (gs t !! id = Some a) as -> by (unfold gs; by rewrite Ht). rewrite IH; [|intros; apply Hl; by right|done].
      unfold visit. simpl. by rewrite <-app_assoc, Hid, Nat.add_succ_r. }
  rewrite (Hrun s0 eq_refl). done.
Qed.

(** *** The steps *)
Definition next (s : acluster) nodes net lg lost : acluster := ACl nodes net lg lost (S (ac_step s)).
Definition requests (s : acluster) (n rid : string) (opts : option bopts) (pub echo : bool) (e1 e2 : order) : list (string * amsg) :=
  if negb (is_local opts) && pub
  then (λ d, (d, AReq n rid (encode_options e1 e2 opts) (ac_step s))) <$> elements (if echo then dom (ac_nodes s) else dom (ac_nodes s) ∖ {[n]})
  else [].
Definition asked (opts : option bopts) (rid : string) (e : nat) (nd : anode) : anode := if is_local opts then nd else set_reqs <[rid := e]> nd.
Inductive trans (s : acluster) : aop → acluster → Prop :=
  | TCall n rid opts pub echo e1 e2 os nd l :
      ac_nodes s !! n = Some nd → NoDup l → (∀ id, id ∈ l ↔ matches (an_ns nd) (opt_rooms opts) (opt_except opts) id) →
      trans s (ACall n rid opts pub echo e1 e2 os)
        (next s (<[n := wrote (ac_step s) (Here (ac_step s)) l (asked opts rid (ac_step s) nd)]> (ac_nodes s)) (ac_net s ++ requests s n rid opts pub echo e1 e2)
           ((ac_log s ++ [Entry (ac_step s) n None (EbCount (length l))]) ++ [Entry (ac_step s) n None EbFinish]) (ac_lost s))
  | TNothing i os : ac_net s !! i = None → trans s (ADeliver i os) (next s (ac_nodes s) (ac_net s) (ac_log s) (ac_lost s))
  | TEcho i os d rid po t : ac_net s !! i = Some (d, AReq d rid po t) →
      trans s (ADeliver i os) (next s (ac_nodes s) (delete i (ac_net s)) (ac_log s) (ac_lost s))
  | TReq i os d u rid po t nd l : ac_net s !! i = Some (d, AReq u rid po t) → u ≠ d → ac_nodes s !! d = Some nd → NoDup l →
      (∀ id, id ∈ l ↔ matches (an_ns nd) (list_to_set (po_rooms po)) (list_to_set (po_except po)) id) →
      trans s (ADeliver i os) (next s (<[d := wrote t (There u rid t) l nd]> (ac_nodes s)) (delete i (ac_net s) ++ [(u, ACnt d rid (length l) t)]) (ac_log s) (ac_lost s))
  | TCnt i os d u rid c t nd e : ac_net s !! i = Some (d, ACnt u rid c t) → ac_nodes s !! d = Some nd → an_reqs nd !! rid = Some e →
      trans s (ADeliver i os) (next s (ac_nodes s) (delete i (ac_net s)) (ac_log s ++ [Entry e u None (EbCount c)]) (ac_lost s))
  | TCntLost i os d u rid c t nd : ac_net s !! i = Some (d, ACnt u rid c t) → ac_nodes s !! d = Some nd → an_reqs nd !! rid = None →
      trans s (ADeliver i os) (next s (ac_nodes s) (delete i (ac_net s)) (ac_log s) (ac_lost s ++ [ACnt u rid c t]))
  | TAns i os d u rid a t w nd e : ac_net s !! i = Some (d, AAns u rid a t w) → ac_nodes s !! d = Some nd → an_reqs nd !! rid = Some e →
      trans s (ADeliver i os) (next s (ac_nodes s) (delete i (ac_net s)) (ac_log s ++ [Entry e u (Some w) (EbReply a)]) (ac_lost s))
  | TAnsLost i os d u rid a t w nd : ac_net s !! i = Some (d, AAns u rid a t w) → ac_nodes s !! d = Some nd → an_reqs nd !! rid = None →
      trans s (ADeliver i os) (next s (ac_nodes s) (delete i (ac_net s)) (ac_log s) (ac_lost s ++ [AAns u rid a t w]))
  | TNoAck n id pid a : (∀ nd, ac_nodes s !! n = Some nd → an_acks nd !! (id, pid) = None) →
      trans s (AClient n id pid a) (next s (ac_nodes s) (ac_net s) (ac_log s) (ac_lost s))
  | THere n id pid a nd e : ac_nodes s !! n = Some nd → an_acks nd !! (id, pid) = Some (Here e) →
      trans s (AClient n id pid a) (next s (<[n := set_acks (delete (id, pid)) nd]> (ac_nodes s)) (ac_net s) (ac_log s ++ [Entry e n (Some id) (EbReply a)]) (ac_lost s))
  | TThere n id pid a nd u rid t : ac_nodes s !! n = Some nd → an_acks nd !! (id, pid) = Some (There u rid t) →
      trans s (AClient n id pid a) (next s (<[n := set_acks (delete (id, pid)) nd]> (ac_nodes s)) (ac_net s ++ [(u, AAns n rid a t id)]) (ac_log s) (ac_lost s))
  | TExpire n rid : trans s (AExpire n rid) (next s (alter (set_reqs (delete rid)) n (ac_nodes s)) (ac_net s) (ac_log s) (ac_lost s))
  | TTimer e : trans s (ATimer e) (next s (ac_nodes s) (ac_net s) (ac_log s ++ [Entry e "" None EbTimer]) (ac_lost s))
  | TLocal n l : trans s (ALocal n l) (next s (alter (upd_ns (local_op l)) n (ac_nodes s)) (ac_net s) (ac_log s) (ac_lost s)).


Lemma alter_insert_eq {A} (f : A → A) n (m : gmap string A) x : m !! n = Some x → alter f n m = <[n := f x]> m.
Proof. intros H. apply map_eq. intros i. destruct (decide (i = n)) as [->|]; [by rewrite lookup_alter, lookup_insert, H|by rewrite lookup_alter_ne, lookup_insert_ne]. Qed.

(** *** Where things come from *)
Definition call_at (h : list aop) (t : nat) (n rid : string) : Prop :=
  ∃ opts pub echo e1 e2 os, h !! t = Some (ACall n rid opts pub echo e1 e2 os) ∧ is_local opts = false.
Definition gone (h : list aop) (n rid : string) (t : nat) : Prop := ∃ j, t < j ∧ h !! j = Some (AExpire n rid).
Definition cont_tag (k : cont) : nat := match k with Here t => t | There _ _ t => t end.

Section proofs.
  Context (uids : gset string).
  Notation run := (arun uids).
  Lemma arun_snoc h op : run (h ++ [op]) = astep (run h) op.
  Proof. unfold arun. by rewrite foldl_app. Qed.

  Definition msg_ok (h : list aop) (x : string * amsg) : Prop :=
    x.1 ∈ uids ∧
    match x.2 with
    | AReq u rid po t => ∃ opts echo e1 e2 os, h !! t = Some (ACall u rid opts true echo e1 e2 os) ∧ is_local opts = false ∧
        po = encode_options e1 e2 opts ∧ u ∈ uids ∧ order_ok e1 ∧ order_ok e2
    | ACnt u rid _ t => u ∈ uids ∧ u ≠ x.1 ∧ call_at h t x.1 rid
    | AAns u rid _ t _ => u ∈ uids ∧ u ≠ x.1 ∧ call_at h t x.1 rid
    end.
  Definition lost_ok (h : list aop) (m : amsg) : Prop :=
    match m with
    | AReq _ _ _ _ => False
    | ACnt u rid _ t => ∃ d, u ≠ d ∧ call_at h t d rid ∧ gone h d rid t
    | AAns u rid _ t _ => ∃ d, u ≠ d ∧ call_at h t d rid ∧ gone h d rid t
    end.
  Definition cont_ok (h : list aop) (m : string) (k : cont) : Prop :=
    match k with
    | Here e => ∃ rid opts pub echo e1 e2 os, h !! e = Some (ACall m rid opts pub echo e1 e2 os)
    | There u rid e => u ≠ m ∧ u ∈ uids ∧ call_at h e u rid
    end.
  Record node_ok (h : list aop) (n : string) (nd : anode) : Prop := NodeOk {
    v_wf : ns_wf (an_ns nd);
    v_reqs : ∀ rid e, an_reqs nd !! rid = Some e → call_at h e n rid;
    v_known : ∀ rid e, call_at h e n rid → an_reqs nd !! rid = Some e ∨ gone h n rid e;
    v_acks : ∀ id pid k, an_acks nd !! (id, pid) = Some k → (id, (cont_tag k, pid)) ∈ ns_written (an_ns nd) ∧ cont_ok h n k;
    v_written : ∀ id e pid, (id, (e, pid)) ∈ ns_written (an_ns nd) → pid < an_ids nd ∧ e < length h;
    v_pid : ∀ id e pid id' e', (id, (e, pid)) ∈ ns_written (an_ns nd) → (id', (e', pid)) ∈ ns_written (an_ns nd) → e = e'
  }.
  Record inv (h : list aop) (s : acluster) : Prop := Inv {
    v_step : ac_step s = length h;
    v_dom : dom (ac_nodes s) = uids;
    v_node : ∀ n nd, ac_nodes s !! n = Some nd → node_ok h n nd;
    v_net : ∀ x, x ∈ ac_net s → msg_ok h x;
    v_lost : ∀ m, m ∈ ac_lost s → lost_ok h m
  }.

  Lemma astep_trans h s op : inv h s → aop_ok uids op → trans s op (astep s op).
  Proof.
    intros Hi Hop. destruct op as [n rid opts pub echo e1 e2 os|i os|n id pid a|n rid|e|n l]; unfold astep; cbn [astep_body].
    - destruct Hop as (Hn & O1 & O2 & Os). unfold acall. rewrite <-(v_dom h s Hi) in Hn. apply elem_of_dom in Hn as [nd Hnd]. rewrite Hnd.
      destruct (base_ack_spec (ac_step s) (Here (ac_step s)) opts os (asked opts rid (ac_step s) nd)) as (l & H1 & H2 & H3); [done| |].
      { unfold asked. destruct (is_local opts); apply (v_wf h n nd (v_node h s Hi n nd Hnd)). }
      change (if is_local opts then nd else set_reqs <[rid := ac_step s]> nd) with (asked opts rid (ac_step s) nd). rewrite H3.
      unfold note, send, on_anode. cbn. rewrite (alter_insert_eq _ n _ nd Hnd). apply TCall with (nd := nd); [done|done|].
      intros id. rewrite H2. unfold asked. by destruct (is_local opts).
    - destruct (ac_net s !! i) as [[d m]|] eqn:E; [|by apply TNothing]. pose proof (elem_of_list_lookup_2 _ _ _ E) as Hin.
      assert (is_Some (ac_nodes s !! d)) as [nd Hnd]. { apply elem_of_dom. rewrite (v_dom h s Hi). by apply (v_net h s Hi (d, m)). }
      unfold areceive. cbn [ac_nodes]. rewrite Hnd. destruct m as [u rid po t|u rid c t|u rid a t w].
      + destruct (decide (u = d)) as [->|Hne]; [by eapply TEcho|].
        destruct (base_ack_spec t (There u rid t) (Some (decode_options (Some po))) os nd) as (l & H1 & H2 & H3); [done|apply (v_wf h d nd (v_node h s Hi d nd Hnd))|].
        rewrite H3. unfold send, on_anode. cbn. rewrite (alter_insert_eq _ d _ nd Hnd). by eapply TReq.
      + unfold note, lose. cbn. destruct (an_reqs nd !! rid) as [e|] eqn:Er; cbn; [by eapply TCnt|by eapply TCntLost].
      + unfold note, lose. cbn. destruct (an_reqs nd !! rid) as [e|] eqn:Er; cbn; [by eapply TAns|by eapply TAnsLost].
    - unfold aclient. destruct (ac_nodes s !! n) as [nd|] eqn:E; [|apply TNoAck; congruence].
      destruct (an_acks nd !! (id, pid)) as [[e|u rid t]|] eqn:Ea; [| |apply TNoAck; congruence].
      + unfold note, on_anode. cbn. rewrite (alter_insert_eq _ n _ nd E). by eapply THere.
      + unfold send, on_anode. cbn. rewrite (alter_insert_eq _ n _ nd E). by eapply TThere.
    - apply TExpire.
    - apply TTimer.
    - apply TLocal.
  Qed.

  (** Longer histories. *)
  Lemma call_at_app h op t n rid : call_at h t n rid → call_at (h ++ [op]) t n rid.
  Proof. intros (o & p & c & a & b & r & H & Hl). exists o, p, c, a, b, r. split; [by apply lookup_app_l_Some|done]. Qed.
  Lemma gone_app h op n rid t : gone h n rid t → gone (h ++ [op]) n rid t.
  Proof. intros (j & ? & ?). exists j. split; [done|]. by apply lookup_app_l_Some. Qed.
  Lemma msg_ok_app h op x : msg_ok h x → msg_ok (h ++ [op]) x.
  Proof.
    intros [H1 H2]. split; [done|]. destruct (x.2).
    - destruct H2 as (o & c & a & b & r & H & ?). exists o, c, a, b, r. split; [by apply lookup_app_l_Some|done].
    - split_and!; [apply H2..|apply call_at_app, H2].
    - split_and!; [apply H2..|apply call_at_app, H2].
  Qed.
  Lemma lost_ok_app h op m : lost_ok h m → lost_ok (h ++ [op]) m.
  Proof. destruct m; [done| |]; intros (d & ? & ? & ?); exists d; eauto using call_at_app, gone_app. Qed.
  Lemma cont_ok_app h op m k : cont_ok h m k → cont_ok (h ++ [op]) m k.
  Proof.
    destruct k as [e|u rid e]; cbn.
    - intros (r & o & p & c & a & b & q & H). exists r, o, p, c, a, b, q. by apply lookup_app_l_Some.
    - intros (? & ? & ?). split_and!; [done|done|]. by apply call_at_app.
  Qed.
  Lemma call_at_lt h t n rid : call_at h t n rid → t < length h.
  Proof. intros (o & p & c & a & b & r & H & _). by apply lookup_lt_Some in H. Qed.
  Lemma call_at_unique h t t' n rid : rids_ok h → call_at h t n rid → call_at h t' n rid → t = t'.
  Proof. intros Hr (o & p & c & a & b & r & H & _) (o' & p' & c' & a' & b' & r' & H' & _). by eapply Hr. Qed.
  Lemma call_at_snoc h op t n rid : call_at (h ++ [op]) t n rid →
    call_at h t n rid ∨ (t = length h ∧ ∃ opts pub echo e1 e2 os, op = ACall n rid opts pub echo e1 e2 os ∧ is_local opts = false).
  Proof.
    intros (o & p & c & a & b & r & H & Hl). apply lookup_app_Some in H as [H|[Hlen H]].
    - left. by exists o, p, c, a, b, r.
    - right. apply list_lookup_singleton_Some in H as [? ->]. split; [lia|]. by exists o, p, c, a, b, r.
  Qed.
  Lemma rids_ok_app h h' : rids_ok (h ++ h') → rids_ok h.
  Proof. intros H i j n rid ? ? ? ? ? ? ? ? ? ? ? ? H1 H2. eapply (H i j n rid); apply lookup_app_l_Some; done. Qed.

  Lemma init_inv : inv [] (ainit uids).
  Proof.
    assert (∀ n nd, ac_nodes (ainit uids) !! n = Some nd → nd = empty_anode) as Hn.
    { intros n nd [_ <-]%lookup_gset_to_gmap_Some. done. }
    split; cbn.
    - done.
    - apply dom_gset_to_gmap.
    - intros n nd ->%Hn. split; cbn.
      + apply ns_wf_alt. split_and!; [apply empty_inv|done|]. intros id [a Ha]. done.
      + done.
      + intros rid e H. by apply call_at_lt, Nat.nlt_0_r in H.
      + done.
      + intros id e pid Hx. by apply elem_of_nil in Hx.
      + intros id e pid id' e' Hx. by apply elem_of_nil in Hx.
    - intros x Hx. by apply elem_of_nil in Hx.
    - intros x Hx. by apply elem_of_nil in Hx.
  Qed.

  Definition is_call_on (n : string) (op : aop) : Prop := match op with ACall m _ _ _ _ _ _ _ => m = n | _ => False end.
  Lemma node_ok_app h op n nd : ¬ is_call_on n op → node_ok h n nd → node_ok (h ++ [op]) n nd.
  Proof.
    intros Hop [W R K A Wr P]. split; [done| | | | |done].
    - intros rid e H. by apply call_at_app, R.
    - intros rid e [H|(-> & o & p & c & a & b & r & -> & _)]%call_at_snoc; [|by destruct Hop].
      destruct (K rid e H); [by left|right; by apply gone_app].
    - intros id pid k H. destruct (A id pid k H). split; [done|by apply cont_ok_app].
    - intros id e pid H. destruct (Wr id e pid H). rewrite app_length. simpl. lia.
  Qed.
  (** A server to which a packet is written. *)
  Lemma node_ok_wrote h n nd t k l : node_ok h n nd → t < length h → cont_tag k = t → cont_ok h n k → node_ok h n (wrote t k l nd).
  Proof.
    intros [W R K A Wr P] Ht Hk Hc. split; cbn [wrote an_ns an_ids an_acks an_reqs ns_written].
    - done.
    - done.
    - done.
    - intros id pid k'. rewrite ack_all_lookup. case_decide as Hd.
      + intros [= <-]. destruct Hd as [-> Hl]. split; [|done]. apply elem_of_app. right. apply elem_of_list_fmap. exists id. by rewrite Hk.
      + intros H. destruct (A id pid k' H). split; [|done]. apply elem_of_app. by left.
    - intros id e pid [H|(i & [= -> -> ->] & _)%elem_of_list_fmap]%elem_of_app; [|lia]. destruct (Wr id e pid H). lia.
    - assert (∀ id e pid, (id, (e, pid)) ∈ ((λ i, (i, (t, an_ids nd))) <$> l) → e = t ∧ pid = an_ids nd) as Hnew.
      { intros id e pid (i & [= -> -> ->] & _)%elem_of_list_fmap. done. }
      intros id e pid id' e' [H|H%Hnew]%elem_of_app [H'|H'%Hnew]%elem_of_app.
      + by eapply P.
      + destruct H' as [-> ->]. destruct (Wr _ _ _ H). lia.
      + destruct H as [-> ->]. destruct (Wr _ _ _ H'). lia.
      + destruct H as [-> _], H' as [-> _]. done.
  Qed.
  Lemma msgs_app h op net : (∀ x, x ∈ (net : list (string * amsg)) → msg_ok h x) → ∀ x, x ∈ net → msg_ok (h ++ [op]) x.
  Proof. intros H x Hx. by apply msg_ok_app, H. Qed.
  Lemma msgs_delete h i net : (∀ x, x ∈ (net : list (string * amsg)) → msg_ok h x) → ∀ x, x ∈ delete i net → msg_ok h x.
  Proof. intros H x Hx%elem_delete. by apply H. Qed.
  Lemma msgs_snoc h net y : (∀ x, x ∈ (net : list (string * amsg)) → msg_ok h x) → msg_ok h y → ∀ x, x ∈ net ++ [y] → msg_ok h x.
  Proof. intros H Hy x [Hx| ->%elem_of_list_singleton]%elem_of_app; [by apply H|done]. Qed.

  Lemma node_ok_asked h n rid opts pub echo e1 e2 os nd : let op := ACall n rid opts pub echo e1 e2 os in
    rids_ok (h ++ [op]) → node_ok h n nd → node_ok (h ++ [op]) n (asked opts rid (length h) nd).
  Proof.
    intros op Hr [W R K A Wr P]. assert (Hnew : (h ++ [op]) !! length h = Some op) by (by rewrite lookup_app_r, Nat.sub_diag).
    assert (Hsame : ∀ nd', an_ns nd' = an_ns nd → an_acks nd' = an_acks nd → an_ids nd' = an_ids nd →
      (∀ r e, an_reqs nd' !! r = Some e → call_at (h ++ [op]) e n r) → (∀ r e, call_at (h ++ [op]) e n r → an_reqs nd' !! r = Some e ∨ gone (h ++ [op]) n r e) →
      node_ok (h ++ [op]) n nd').
    { intros nd' E1 E2 E3 R' K'. split; rewrite ?E1, ?E2, ?E3; [done|done|done| | |done].
      - intros id pid k H. destruct (A id pid k H). split; [done|by apply cont_ok_app].
      - intros id e pid H. destruct (Wr id e pid H). rewrite app_length. simpl. lia. }
    unfold asked. destruct (is_local opts) eqn:El; apply Hsame; cbn; try done.
    - intros r e H. by apply call_at_app, R.
    - intros r e [H|(-> & o & p & c & a & b & q & [= <- <- <- <- <- <- <-] & ?)]%call_at_snoc; [|congruence].
      destruct (K r e H); [by left|right; by apply gone_app].
    - intros r e [[<- <-]|[_ H]]%lookup_insert_Some; [|by apply call_at_app, R]. by exists opts, pub, echo, e1, e2, os.
    - intros r e [H|(-> & o & p & c & a & b & q & [= <- <- <- <- <- <- <-] & ?)]%call_at_snoc.
      + destruct (decide (r = rid)) as [->|].
        { pose proof (call_at_lt _ _ _ _ H). apply call_at_app with (op := op) in H.
          assert (call_at (h ++ [op]) (length h) n rid) as H' by (by exists opts, pub, echo, e1, e2, os).
          pose proof (call_at_unique _ _ _ _ _ Hr H H'). lia. }
        rewrite lookup_insert_ne by done. destruct (K r e H); [by left|right; by apply gone_app].
      + left. by rewrite lookup_insert.
  Qed.
  Lemma node_ok_acks h n nd f : (∀ p k, f (an_acks nd) !! p = Some k → an_acks nd !! p = Some k) → node_ok h n nd → node_ok h n (set_acks f nd).
  Proof. intros Hf [W R K A Wr P]. split; cbn; try done. intros id pid k H. by apply A, Hf. Qed.

  Lemma step_inv h s op : inv h s → aop_ok uids op → rids_ok (h ++ [op]) → inv (h ++ [op]) (astep s op).
  Proof.
    intros Hi Hop Hr. pose proof (astep_trans h s op Hi Hop) as Ht. generalize dependent (astep s op). intros s' Ht.
    destruct Hi as [Hs Hd Hn Hnet Hlost].
    assert (Hlost' : ∀ m, m ∈ ac_lost s → lost_ok (h ++ [op]) m) by (intros m Hm; by apply lost_ok_app, Hlost).
    pose proof (msgs_app h op _ Hnet) as Hnet'.
    assert (Hlen : S (ac_step s) = length (h ++ [op])) by (rewrite app_length; simpl; lia).
    assert (Hkeep : ∀ n nd, ¬ is_call_on n op → ac_nodes s !! n = Some nd → node_ok (h ++ [op]) n nd) by (intros n nd Ho H; by apply node_ok_app, Hn).
    assert (Hone : ∀ n nd nd', (∀ m, m ≠ n → ¬ is_call_on m op) → ac_nodes s !! n = Some nd → node_ok (h ++ [op]) n nd' →
      dom (<[n := nd']> (ac_nodes s)) = uids ∧ ∀ m md, <[n := nd']> (ac_nodes s) !! m = Some md → node_ok (h ++ [op]) m md).
    { intros n nd nd' Ho Hnd Hok. split.
      - rewrite dom_insert_L. assert (n ∈ dom (ac_nodes s)) by (apply elem_of_dom; by exists nd). set_solver.
      - intros m md [[<- <-]|[Hne Hm]]%lookup_insert_Some; [done|]. apply Hkeep; [|done]. by apply Ho. }
    assert (Hin : ∀ i x, ac_net s !! i = Some x → msg_ok (h ++ [op]) x) by (intros i x Hx; by eapply Hnet', elem_of_list_lookup_2).
    assert (Hgone : ∀ i d m nd u rid t, ac_net s !! i = Some (d, m) → ac_nodes s !! d = Some nd → an_reqs nd !! rid = None → ¬ is_call_on d op →
      u ≠ d → call_at (h ++ [op]) t d rid → ∃ d, u ≠ d ∧ call_at (h ++ [op]) t d rid ∧ gone (h ++ [op]) d rid t).
    { intros i d m nd u rid t _ Hnd Hreq Ho Hu Hc. exists d. split_and!; [done|done|].
      destruct (v_known _ _ _ (Hkeep d nd Ho Hnd) rid t Hc); [congruence|done]. }
    destruct Ht as [n rid opts pub echo e1 e2 os nd l Hnd Hnl Hl|i os Hx|i os d rid po t Hx|i os d u rid po t nd l Hx Hud Hnd Hnl Hl|i os d u rid c t nd e Hx Hnd Hreq|i os d u rid c t nd Hx Hnd Hreq
      |i os d u rid a t w nd e Hx Hnd Hreq|i os d u rid a t w nd Hx Hnd Hreq|n id pid a Hno|n id pid a nd e Hnd Hack|n id pid a nd u rid t Hnd Hack|n rid|e|n l]; unfold next.
    - (* TCall *)
      destruct Hop as (Hnu & O1 & O2 & Os). rewrite Hs.
      destruct (Hone n nd (wrote (length h) (Here (length h)) l (asked opts rid (length h) nd))) as [D1 D2]; [cbn; congruence|done| |].
      { apply node_ok_wrote; [|rewrite app_length; simpl; lia|done|].
        - apply node_ok_asked; [done|by apply Hn].
        - exists rid, opts, pub, echo, e1, e2, os. by rewrite lookup_app_r, Nat.sub_diag. }
      split; cbn [ac_step ac_nodes ac_net ac_lost]; [by rewrite <-Hs|done|done| |done].
      intros x [Hx|Hx]%elem_of_app; [by apply Hnet'|]. unfold requests in Hx. destruct (is_local opts) eqn:El; cbn in Hx; [by apply elem_of_nil in Hx|].
      destruct pub; [|by apply elem_of_nil in Hx]. apply elem_of_list_fmap in Hx as (d & -> & Hd'%elem_of_elements). split; cbn.
      + destruct echo; rewrite Hd in Hd'; set_solver.
      + rewrite Hs. exists opts, echo, e1, e2, os. rewrite lookup_app_r, Nat.sub_diag by done. done.
    - split; try done. intros n nd H. apply Hkeep; [cbn; tauto|exact H].
    - split; try done; cbn. { intros n nd H. apply Hkeep; [cbn; tauto|exact H]. } by apply msgs_delete.
    - (* TReq *)
      destruct (Hin i _ Hx) as [Hdu (opts & echo & e1 & e2 & os' & Hc & Hloc & -> & Hu & _)]. cbn in *.
      assert (Hcall : call_at (h ++ [ADeliver i os]) t u rid) by (by exists opts, true, echo, e1, e2, os').
      destruct (Hone d nd (wrote t (There u rid t) l nd)) as [D1 D2]; [cbn; tauto|done| |].
      { apply node_ok_wrote; [apply Hkeep; [cbn; tauto|done]|by eapply call_at_lt|done|done]. }
      split; cbn [ac_step ac_nodes ac_net ac_lost]; try done. apply msgs_snoc; [by apply msgs_delete|]. split; cbn; [done|]. split_and!; [done|congruence|done].
    - split; try done; cbn. { intros n nd' H. apply Hkeep; [cbn; tauto|exact H]. } by apply msgs_delete.
    - split; try done; cbn. { intros n nd' H. apply Hkeep; [cbn; tauto|exact H]. } { by apply msgs_delete. }
      intros m [Hm| ->%elem_of_list_singleton]%elem_of_app; [by apply Hlost'|]. destruct (Hin i _ Hx) as [_ (_ & Hu & Hc)]. cbn in *. eapply (Hgone i d _ nd); [done|done|done|cbn; tauto|done|done].
    - split; try done; cbn. { intros n nd' H. apply Hkeep; [cbn; tauto|exact H]. } by apply msgs_delete.
    - split; try done; cbn. { intros n nd' H. apply Hkeep; [cbn; tauto|exact H]. } { by apply msgs_delete. }
      intros m [Hm| ->%elem_of_list_singleton]%elem_of_app; [by apply Hlost'|]. destruct (Hin i _ Hx) as [_ (_ & Hu & Hc)]. cbn in *. eapply (Hgone i d _ nd); [done|done|done|cbn; tauto|done|done].
    - split; try done. intros n' nd H. apply Hkeep; [cbn; tauto|exact H].
    - destruct (Hone n nd (set_acks (delete (id, pid)) nd)) as [D1 D2]; [cbn; tauto|done| |split; done].
      apply node_ok_acks; [|apply Hkeep; [cbn; tauto|done]]. intros p k [_ H]%lookup_delete_Some. done.
    - destruct (Hone n nd (set_acks (delete (id, pid)) nd)) as [D1 D2]; [cbn; tauto|done| |].
      { apply node_ok_acks; [|apply Hkeep; [cbn; tauto|done]]. intros p k [_ H]%lookup_delete_Some. done. }
      split; try done; cbn. apply msgs_snoc; [done|]. destruct (v_acks _ _ _ (Hkeep n nd ltac:(cbn; tauto) Hnd) _ _ _ Hack) as [_ (? & ? & ?)].
      split; cbn; [done|]. split_and!; [|congruence|done]. rewrite <-Hd. apply elem_of_dom. by exists nd.
    - (* TExpire *)
      destruct (ac_nodes s !! n) as [nd|] eqn:Hnd.
      + rewrite (alter_insert_eq _ _ _ _ Hnd). destruct (Hone n nd (set_reqs (delete rid) nd)) as [D1 D2]; [cbn; tauto|done| |split; done].
        destruct (Hkeep n nd ltac:(cbn; tauto) Hnd) as [W R K A Wr P]. split; cbn; try done.
        * intros r e [_ H]%lookup_delete_Some. by apply R.
        * intros r e Hc. destruct (decide (r = rid)) as [->|]; [|rewrite lookup_delete_ne by done; by apply K]. right.
          exists (length h). rewrite lookup_app_r, Nat.sub_diag by done. split; [|done].
          apply call_at_snoc in Hc as [Hc|(-> & o & p & q & a & b & r & ? & _)]; [by eapply call_at_lt|done].
      + rewrite alter_id by congruence. split; try done. intros n' nd H. apply Hkeep; [cbn; tauto|exact H].
    - split; try done. intros n' nd H. apply Hkeep; [cbn; tauto|exact H].
    - (* TLocal *)
      destruct (ac_nodes s !! n) as [nd|] eqn:Hnd.
      + rewrite (alter_insert_eq _ _ _ _ Hnd). destruct (Hone n nd (upd_ns (local_op l) nd)) as [D1 D2]; [cbn; tauto|done| |split; done].
        destruct (Hkeep n nd ltac:(cbn; tauto) Hnd) as [W R K A Wr P].
        destruct (local_op_wf l (an_ns nd)) as [W' E]; [|done|]. { intros id o ->. exact Hop. }
        split; cbn; rewrite ?E; done.
      + rewrite alter_id by congruence. split; try done. intros n' nd H. apply Hkeep; [cbn; tauto|exact H].
  Qed.
  Lemma run_inv h : Forall (aop_ok uids) h → rids_ok h → inv h (run h).
  Proof.
    induction h as [|op h IH] using rev_ind; intros Hok Hr; [apply init_inv|].
    apply Forall_app in Hok as [Hok [Hop _]%Forall_cons]. rewrite arun_snoc. apply step_inv; [|done|done]. apply IH; [done|by eapply rids_ok_app].
  Qed.
End proofs.
