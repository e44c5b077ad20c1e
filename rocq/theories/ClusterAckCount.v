(** Proofs about [ClusterAck.v]: nothing is counted twice, nothing is lost before the request expires. *)
From Verif Require Import Base GoTypes Rooms Adapter AdapterSpec Cluster ClusterSpec ClusterProofs BcastAck BcastAckSpec ClusterAck ClusterAckSpec ClusterAckProofs.

(** *** The counters, as functions of the parts of the state *)
Definition f_req (k : nat) (m : string) (x : string * amsg) : option () := match x.2 with AReq u _ _ t => if decide (x.1 = m ∧ u ≠ m ∧ t = k) then Some () else None | _ => None end.
Definition f_cnt (k : nat) (m : string) (x : amsg) : option () := match x with ACnt u _ _ t => if decide (u = m ∧ t = k) then Some () else None | _ => None end.
Definition f_ans (k : nat) (m : string) (id : sid) (x : amsg) : option () := match x with AAns u _ _ t w => if decide (u = m ∧ t = k ∧ w = id) then Some () else None | _ => None end.
Definition g_cnt (k : nat) (m : string) (x : entry) : option nat := if decide (en_call x = k ∧ en_from x = m) then match en_ev x with EbCount c => Some c | _ => None end else None.
Definition g_ans (k : nat) (m : string) (id : sid) (x : entry) : option (list value) := if decide (en_call x = k ∧ en_from x = m ∧ en_who x = Some id) then match en_ev x with EbReply a => Some a | _ => None end else None.
Notation Rq net k m := (length (omap (f_req k m) net)).
Notation Cw net k m := (length (omap (λ x, f_cnt k m x.2) net)).
Notation Aw net k m id := (length (omap (λ x, f_ans k m id x.2) net)).
Notation Cf lg k m := (omap (g_cnt k m) lg).
Notation Af lg k m id := (omap (g_ans k m id) lg).
Notation Cl lost k m := (length (omap (f_cnt k m) lost)).
Notation Al lost k m id := (length (omap (f_ans k m id) lost)).
Definition sentn (nd : anode) (k : nat) : list (sid * nat) := omap (λ w, if decide (w.2.1 = k) then Some (w.1, w.2.2) else None) (ns_written (an_ns nd)).
Definition waitn (nd : anode) (k : nat) : list (sid * nat) := filter (λ p, is_Some (an_acks nd !! p)) (sentn nd k).
Notation of l id := (length (filter (λ p : sid * nat, p.1 = id) l)).

Lemma sent_node s m nd k : ac_nodes s !! m = Some nd → sent s m k = sentn nd k.
Proof. intros H. unfold sent. by rewrite H. Qed.
Lemma wait_node s m nd k : ac_nodes s !! m = Some nd → waiting s m k = waitn nd k.
Proof. intros H. unfold waiting. by rewrite H, (sent_node s m nd). Qed.
Lemma elem_sentn nd k id pid : (id, pid) ∈ sentn nd k ↔ (id, (k, pid)) ∈ ns_written (an_ns nd).
Proof.
  unfold sentn. rewrite elem_of_list_omap. split.
  - intros ([i [e p]] & Hin & Hf). cbn in Hf. case_decide; [|done]. by simplify_eq.
  - intros H. exists (id, (k, pid)). cbn. by rewrite decide_True.
Qed.
Lemma sentn_wrote t c l nd k : sentn (wrote t c l nd) k = sentn nd k ++ (if decide (t = k) then (λ id, (id, an_ids nd)) <$> l else []).
Proof.
  unfold sentn, wrote. cbn [an_ns ns_written]. rewrite omap_app. f_equal. induction l as [|id l IH]; cbn; [by case_decide|].
  rewrite IH. by case_decide.
Qed.
Lemma filter_ext {A} (P Q : A → Prop) `{∀ x, Decision (P x), ∀ x, Decision (Q x)} (l : list A) : (∀ x, x ∈ l → P x ↔ Q x) → filter P l = filter Q l.
Proof.
  induction l as [|x l IH]; intros HPQ; [done|]. rewrite !filter_cons, IH by (intros; apply HPQ; by right).
  destruct (decide (P x)) as [Hp|Hp], (decide (Q x)) as [Hq|Hq]; try done; by rewrite HPQ in Hp by left.
Qed.
Lemma filter_all {A} (P : A → Prop) `{∀ x, Decision (P x)} (l : list A) : (∀ x, x ∈ l → P x) → filter P l = l.
Proof. induction l as [|x l IH]; intros HP; [done|]. rewrite filter_cons, decide_True by (apply HP; by left). by rewrite IH by (intros; apply HP; by right). Qed.
Lemma waitn_wrote t c l nd k : (∀ id pid, (id, pid) ∈ sentn nd k → pid < an_ids nd) →
  waitn (wrote t c l nd) k = waitn nd k ++ (if decide (t = k) then (λ id, (id, an_ids nd)) <$> l else []).
Proof.
  intros Hlt. unfold waitn. rewrite sentn_wrote, filter_app. cbn [wrote an_acks]. f_equal.
  - apply filter_ext. intros [id pid] Hin%Hlt. rewrite ack_all_lookup, decide_False; [done|lia].
  - apply filter_all. case_decide; [|intros x Hx; by apply elem_of_nil in Hx].
    intros x (id & -> & Hid)%elem_of_list_fmap. rewrite ack_all_lookup, decide_True; [by eexists|done].
Qed.
Lemma wait_delete (m : gmap (sid * nat) cont) p l : NoDup l → p ∈ l → is_Some (m !! p) →
  filter (λ q, is_Some (m !! q)) l ≡ₚ p :: filter (λ q, is_Some (delete p m !! q)) l.
Proof.
  induction l as [|x l IH]; intros Hnd Hin Hp; [by apply elem_of_nil in Hin|]. apply NoDup_cons in Hnd as [Hx Hnd].
  rewrite !filter_cons. apply elem_of_cons in Hin as [<-|Hin].
  - rewrite decide_True by done. rewrite (decide_False (P := is_Some (delete p m !! p))) by (rewrite lookup_delete; by intros [? ?]).
    constructor. erewrite filter_ext; [reflexivity|]. intros q Hq. cbn. rewrite lookup_delete_ne; [done|]. by intros ->.
  - assert (x ≠ p) by (by intros ->). rewrite lookup_delete_ne by done. case_decide; [|by apply IH]. rewrite IH by done. by rewrite Permutation_swap.
Qed.
Lemma wait_delete_ne (m : gmap (sid * nat) cont) p (l : list (sid * nat)) : p ∉ l → filter (λ q, is_Some (m !! q)) l = filter (λ q, is_Some (delete p m !! q)) l.
Proof. intros Hp. apply filter_ext. intros q Hq. rewrite lookup_delete_ne; [done|]. by intros ->. Qed.
Lemma of_fmap (l : list sid) (pid : nat) id : NoDup l → of ((λ i, (i, pid)) <$> l) id = if decide (id ∈ l) then 1 else 0.
Proof.
  induction l as [|x l IH]; intros Hnd; [done|]. apply NoDup_cons in Hnd as [Hx Hnd]. rewrite fmap_cons, filter_cons. cbn [fst].
  destruct (decide (x = id)) as [->|Hne].
  - cbn [length]. rewrite IH by done. rewrite decide_False by done. rewrite decide_True by (by left). done.
  - rewrite IH by done. destruct (decide (id ∈ l)); [rewrite decide_True by (by right); done|]. rewrite decide_False; [done|]. intros [->|?]%elem_of_cons; done.
Qed.
Lemma of_perm l l' id : l ≡ₚ l' → of l id = of l' id.
Proof. intros H. by rewrite H. Qed.

Ltac dec := repeat case_decide; try lia; exfalso; destruct_and?; subst; match goal with H : ¬ (_ ∧ _) |- False => apply H; split_and?; congruence end.
(** The number of reports that server [m] is to make to call [k]. *)
Definition due (h : list aop) (k : nat) (m : string) : nat :=
  match h !! k with
  | Some (ACall n _ opts pub _ _ _ _) => if decide (m = n) then 1 else if negb (is_local opts) && pub then 1 else 0
  | _ => 0
  end.
Section count.
  Context (uids : gset string).
  Notation run := (arun uids).
  Record cons (h : list aop) (s : acluster) : Prop := Cons {
    c_cnt : ∀ m k, m ∈ uids → Rq (ac_net s) k m + Cw (ac_net s) k m + length (Cf (ac_log s) k m) + Cl (ac_lost s) k m = due h k m;
    c_empty : ∀ m k, Cw (ac_net s) k m + length (Cf (ac_log s) k m) + Cl (ac_lost s) k m = 0 → sent s m k = [];
    c_way : ∀ d m rid c k, (d, ACnt m rid c k) ∈ ac_net s → c = length (sent s m k);
    c_val : ∀ m k c, c ∈ Cf (ac_log s) k m → c = length (sent s m k);
    c_ans : ∀ m k id, of (waiting s m k) id + Aw (ac_net s) k m id + length (Af (ac_log s) k m id) + Al (ac_lost s) k m id = of (sent s m k) id;
    c_nodup : ∀ m k, NoDup (sent s m k).*1
  }.

  Lemma due_snoc_ne h op k m : k ≠ length h → due (h ++ [op]) k m = due h k m.
  Proof.
    intros Hk. unfold due. destruct (decide (k < length h)); [by rewrite lookup_app_l|].
    rewrite (lookup_ge_None_2 (h ++ [op])), (lookup_ge_None_2 h) by (rewrite ?app_length; simpl; lia). done.
  Qed.
  Lemma due_new h k m : length h ≤ k → due h k m = 0.
  Proof. intros Hk. unfold due. by rewrite lookup_ge_None_2. Qed.
  Lemma due_snoc_quiet h op k m : (∀ n rid opts pub echo e1 e2 os, op ≠ ACall n rid opts pub echo e1 e2 os) → due (h ++ [op]) k m = due h k m.
  Proof.
    intros Hop. destruct (decide (k = length h)) as [->|]; [|by apply due_snoc_ne]. rewrite (due_new h) by done.
    unfold due. rewrite lookup_app_r, Nat.sub_diag by done. destruct op; try done. by destruct (Hop n rid opts pub echo e1 e2 os).
  Qed.
  Lemma f_req_count k m n rid po t (l : list string) : NoDup l →
    length (omap (f_req k m) ((λ d, (d, AReq n rid po t)) <$> l)) = if decide (k = t ∧ m ≠ n ∧ m ∈ l) then 1 else 0.
  Proof.
    induction l as [|x l IH]; intros Hnd; [rewrite decide_False; [done|]; intros (_ & _ & Hx); by apply elem_of_nil in Hx|].
    apply NoDup_cons in Hnd as [Hx Hnd]. rewrite fmap_cons. unfold omap in *. cbn [list_omap]. unfold f_req at 1. cbn [fst snd].
    destruct (decide (x = m ∧ n ≠ m ∧ t = k)) as [(-> & ? & ->)|Hn]; cbn [length]; rewrite IH by done.
    - rewrite decide_False by tauto. rewrite decide_True; [done|]. split_and!; [done|done|by left].
    - destruct (decide (k = t ∧ m ≠ n ∧ m ∈ l)) as [(-> & ? & ?)|Hl]; [rewrite decide_True; [done|]; split_and!; [done|done|by right]|].
      rewrite decide_False; [done|]. intros (-> & ? & [->|?]%elem_of_cons); naive_solver.
  Qed.
  Lemma requests_count s n rid opts pub echo e1 e2 k m : m ∈ dom (ac_nodes s) →
    length (omap (f_req k m) (requests s n rid opts pub echo e1 e2)) = if decide (k = ac_step s ∧ m ≠ n) then (if negb (is_local opts) && pub then 1 else 0) else 0.
  Proof.
    intros Hm. unfold requests. destruct (negb (is_local opts) && pub) eqn:E; [|by case_decide].
    rewrite f_req_count by apply NoDup_elements. 
    assert (m ≠ n → m ∈ elements (if echo then dom (ac_nodes s) else dom (ac_nodes s) ∖ {[n]})) as HD.
    { intros Hne. apply elem_of_elements. destruct echo; set_solver. }
    destruct (decide (k = ac_step s ∧ m ≠ n)) as [[-> ?]|Hn]; [rewrite decide_True; [done|]; split_and!; [done|done|by apply HD]|].
    rewrite decide_False; [done|]. tauto.
  Qed.
  Lemma requests_other {B} (f : amsg → option B) s n rid opts pub echo e1 e2 : (∀ u r o t, f (AReq u r o t) = None) →
    omap (λ x, f x.2) (requests s n rid opts pub echo e1 e2) = [].
  Proof.
    intros Hf. unfold requests. destruct (negb (is_local opts) && pub); [|done]. induction (elements _) as [|x l IH]; [done|]. rewrite fmap_cons. unfold omap in *. cbn [list_omap].
    cbn [snd]. by rewrite Hf.
  Qed.
  Lemma init_cons : cons [] (ainit uids).
  Proof.
    assert (∀ m k, sent (ainit uids) m k = []) as Hs.
    { intros m k. unfold sent. cbn. destruct (gset_to_gmap empty_anode uids !! m) as [nd|] eqn:E; [|done]. by apply lookup_gset_to_gmap_Some in E as [_ <-]. }
    assert (∀ m k, waiting (ainit uids) m k = []) as Hw.
    { intros m k. unfold waiting. rewrite Hs. by destruct (_ !! m). }
    split.
    - done.
    - intros. apply Hs.
    - intros ? ? ? ? ? H. by apply elem_of_nil in H.
    - intros ? ? ? H. by apply elem_of_nil in H.
    - intros m k id. by rewrite Hs, Hw.
    - intros m k. rewrite Hs. constructor.
  Qed.

  Lemma one_elem {A B} (f : A → option B) l x : x ∈ l → 1 ≤ one f x → 1 ≤ length (omap f l).
  Proof.
    intros Hx H. unfold one in H. destruct (f x) as [y|] eqn:E; [|lia].
    assert (y ∈ omap f l) as Hy by (apply elem_of_list_omap; eauto). destruct (omap f l); [by apply elem_of_nil in Hy|cbn; lia].
  Qed.
  Lemma sent_insert s s' n nd nd' m k : ac_nodes s !! n = Some nd → ac_nodes s' = <[n := nd']> (ac_nodes s) →
    sent s' m k = (if decide (m = n) then sentn nd' k else sent s m k) ∧ waiting s' m k = (if decide (m = n) then waitn nd' k else waiting s m k).
  Proof.
    intros Hnd E. unfold waiting, sent. rewrite E. destruct (decide (m = n)) as [->|]; [by rewrite lookup_insert|]. by rewrite lookup_insert_ne.
  Qed.
  Lemma sent_alter s s' n f m k : ac_nodes s' = alter f n (ac_nodes s) → (∀ nd, ac_nodes s !! n = Some nd → ns_written (an_ns (f nd)) = ns_written (an_ns nd) ∧ an_acks (f nd) = an_acks nd) →
    sent s' m k = sent s m k ∧ waiting s' m k = waiting s m k.
  Proof.
    intros E Hf. unfold waiting, sent. rewrite E. destruct (decide (m = n)) as [->|]; [|by rewrite lookup_alter_ne]. rewrite lookup_alter.
    destruct (ac_nodes s !! n) as [nd|] eqn:Hnd; cbn; [|done]. destruct (Hf nd eq_refl) as [-> ->]. done.
  Qed.
  Lemma due_le h k m : due h k m ≤ 1.
  Proof. unfold due. destruct (h !! k) as [[]|]; repeat case_match; lia. Qed.

  (** Nothing has happened yet to a call that is not there yet, and a server that has not been asked has written nothing. *)
  Lemma quiet h s m k : cons h s → Cw (ac_net s) k m + length (Cf (ac_log s) k m) + Cl (ac_lost s) k m = 0 →
    sent s m k = [] ∧ waiting s m k = [] ∧ (∀ id, Aw (ac_net s) k m id = 0 ∧ length (Af (ac_log s) k m id) = 0 ∧ Al (ac_lost s) k m id = 0).
  Proof.
    intros Hc H0. pose proof (c_empty _ _ Hc m k H0) as Hs. assert (waiting s m k = []) as Hw. { unfold waiting. rewrite Hs. by destruct (_ !! m). }
    split_and!; [done|done|]. intros id. pose proof (c_ans _ _ Hc m k id) as Ha. rewrite Hs, Hw in Ha. cbn in Ha. lia.
  Qed.
  Lemma Cw_none (net : list (string * amsg)) d m rid c k : (d, ACnt m rid c k) ∈ net → 1 ≤ Cw net k m.
  Proof. intros Hin. eapply one_elem; [exact Hin|]. unfold one, f_cnt. cbn. by rewrite decide_True. Qed.

  (** Steps that only move things. *)
  Lemma cons_move h op s s' : cons h s → (∀ n rid opts pub echo e1 e2 os, op ≠ ACall n rid opts pub echo e1 e2 os) →
    (∀ m k, sent s' m k = sent s m k ∧ waiting s' m k = waiting s m k) →
    (∀ m k, Rq (ac_net s') k m = Rq (ac_net s) k m) →
    (∀ m k, Cw (ac_net s') k m + length (Cf (ac_log s') k m) + Cl (ac_lost s') k m = Cw (ac_net s) k m + length (Cf (ac_log s) k m) + Cl (ac_lost s) k m) →
    (∀ d m rid c k, (d, ACnt m rid c k) ∈ ac_net s' → (d, ACnt m rid c k) ∈ ac_net s) →
    (∀ m k c, c ∈ Cf (ac_log s') k m → c ∈ Cf (ac_log s) k m ∨ ∃ d rid, (d, ACnt m rid c k) ∈ ac_net s) →
    (∀ m k id, Aw (ac_net s') k m id + length (Af (ac_log s') k m id) + Al (ac_lost s') k m id = Aw (ac_net s) k m id + length (Af (ac_log s) k m id) + Al (ac_lost s) k m id) →
    cons (h ++ [op]) s'.
  Proof.
    intros Hc Hop Hs Hrq Hcnt Hway Hval Hans. split.
    - intros m k Hm. rewrite due_snoc_quiet by done. pose proof (c_cnt _ _ Hc m k Hm). specialize (Hrq m k). specialize (Hcnt m k). lia.
    - intros m k H. rewrite Hcnt in H. destruct (Hs m k) as [-> _]. by apply (c_empty _ _ Hc).
    - intros d m rid c k H%Hway. destruct (Hs m k) as [-> _]. by eapply (c_way _ _ Hc).
    - intros m k c [H|(d & rid & H)]%Hval; destruct (Hs m k) as [-> _]; [by eapply (c_val _ _ Hc)|by eapply (c_way _ _ Hc)].
    - intros m k id. destruct (Hs m k) as [-> ->]. pose proof (c_ans _ _ Hc m k id). specialize (Hans m k id). lia.
    - intros m k. destruct (Hs m k) as [-> _]. apply (c_nodup _ _ Hc).
  Qed.
  Lemma waitn_answer h n nd id pid c k i : node_ok uids h n nd → an_acks nd !! (id, pid) = Some c → NoDup (sentn nd k).*1 →
    of (waitn nd k) i = of (waitn (set_acks (delete (id, pid)) nd) k) i + (if decide (cont_tag c = k ∧ id = i) then 1 else 0).
  Proof.
    intros Hn Hack Hnd. destruct (v_acks _ _ _ _ Hn _ _ _ Hack) as [Hw _]. apply NoDup_fmap_1 in Hnd. unfold waitn. cbn [set_acks an_acks].
    change (sentn (set_acks (delete (id, pid)) nd) k) with (sentn nd k). destruct (decide (cont_tag c = k)) as [<-|Hne].
    - rewrite (of_perm _ _ i (wait_delete (an_acks nd) (id, pid) (sentn nd (cont_tag c)) Hnd ltac:(by apply elem_sentn) ltac:(by eexists))). rewrite filter_cons. cbn [fst].
      destruct (decide (id = i)) as [->|]; [rewrite decide_True by done; cbn; lia|]. rewrite decide_False by tauto. lia.
    - rewrite (wait_delete_ne (an_acks nd) (id, pid)); [rewrite decide_False by tauto; lia|]. intros H%elem_sentn. by pose proof (v_pid _ _ _ _ Hn _ _ _ _ _ Hw H).
  Qed.
  Lemma step_cons h s op : inv uids h s → cons h s → aop_ok uids op → rids_ok (h ++ [op]) → cons (h ++ [op]) (astep s op).
  Proof.
    intros Hi Hc Hop Hr. pose proof (astep_trans uids h s op Hi Hop) as Ht. generalize dependent (astep s op). intros s' Ht.
    assert (Hr' : rids_ok h) by (by eapply rids_ok_app).
    assert (Htag : ∀ i d m nd rid e t, ac_net s !! i = Some (d, m) → ac_nodes s !! d = Some nd → an_reqs nd !! rid = Some e → call_at h t d rid → e = t).
    { intros i d m nd rid e t _ Hnd Hreq Hcall. eapply call_at_unique; [done| |done]. by eapply v_reqs; [eapply v_node|]. }
    assert (Hsame : ∀ s0 : acluster, ac_nodes s0 = ac_nodes s → ∀ m k, sent s0 m k = sent s m k ∧ waiting s0 m k = waiting s m k).
    { intros s0 E m k. unfold waiting, sent. by rewrite E. }
    destruct Ht as [n rid opts pub echo e1 e2 os nd l Hnd Hnl Hl|i os Hx|i os d rid po t Hx|i os d u rid po t nd l Hx Hud Hnd Hnl Hl|i os d u rid c t nd e Hx Hnd Hreq|i os d u rid c t nd Hx Hnd Hreq
      |i os d u rid a t w nd e Hx Hnd Hreq|i os d u rid a t w nd Hx Hnd Hreq|n id pid a Hno|n id pid a nd e Hnd Hack|n id pid a nd u rid t Hnd Hack|n rid|e|n l].
    - (* TCall *)
      pose proof (v_step _ _ _ Hi) as Es. rewrite Es. set (k0 := length h).
      set (nd' := wrote k0 (Here k0) l (asked opts rid k0 nd)). set (s' := next _ _ _ _ _).
      assert (Hq : ∀ m, m ∈ uids → Rq (ac_net s) k0 m = 0 ∧ Cw (ac_net s) k0 m = 0 ∧ length (Cf (ac_log s) k0 m) = 0 ∧ Cl (ac_lost s) k0 m = 0).
      { intros m Hm. pose proof (c_cnt _ _ Hc m k0 Hm) as H. rewrite due_new in H by done. lia. }
      assert (Hn : n ∈ uids) by apply Hop.
      destruct (Hq n Hn) as (Hq1 & Hq2 & Hq3 & Hq4). destruct (quiet h s n k0 Hc ltac:(lia)) as (Hs0 & Hw0 & Ha0).
      rewrite (sent_node s n nd) in Hs0 by done. rewrite (wait_node s n nd) in Hw0 by done.
      assert (Hask : ∀ k, sentn (asked opts rid k0 nd) k = sentn nd k ∧ waitn (asked opts rid k0 nd) k = waitn nd k) by (intros k; unfold asked; by destruct (is_local opts)).
      assert (Hids : an_ids (asked opts rid k0 nd) = an_ids nd) by (unfold asked; by destruct (is_local opts)).
      assert (Hsn : ∀ k, sentn nd' k = if decide (k0 = k) then (λ id, (id, an_ids nd)) <$> l else sentn nd k).
      { intros k. unfold nd'. rewrite sentn_wrote, Hids. destruct (Hask k) as [-> _]. case_decide; [subst k; by rewrite Hs0|]. by rewrite app_nil_r. }
      assert (Hwn : ∀ k, waitn nd' k = if decide (k0 = k) then (λ id, (id, an_ids nd)) <$> l else waitn nd k).
      { intros k. unfold nd'. rewrite waitn_wrote, Hids; [destruct (Hask k) as [_ ->]; case_decide; [subst k; by rewrite Hw0|]; by rewrite app_nil_r|].
        intros id pid. destruct (Hask k) as [-> _]. rewrite Hids. intros H%elem_sentn. by eapply v_written in H as [? _]; [|by eapply v_node]. }
      assert (Hch : ∀ m k, sent s' m k = (if decide (m = n) then sentn nd' k else sent s m k) ∧ waiting s' m k = (if decide (m = n) then waitn nd' k else waiting s m k))
        by (intros m k; by eapply sent_insert).
      assert (Hcf : ∀ k m, Cf (ac_log s') k m = Cf (ac_log s) k m ++ (if decide (k0 = k ∧ n = m) then [length l] else [])).
      { intros k m. cbn [s' next ac_log]. rewrite !omap_snoc. unfold g_cnt at 2 3. cbn. case_decide; by rewrite app_nil_r. }
      assert (Haf : ∀ k m id, Af (ac_log s') k m id = Af (ac_log s) k m id).
      { intros k m id. cbn [s' next ac_log]. rewrite !omap_snoc. unfold g_ans at 2 3. cbn. case_decide; by rewrite !app_nil_r. }
      assert (Hnet : ∀ k m, Cw (ac_net s') k m = Cw (ac_net s) k m).
      { intros k m. cbn [s' next ac_net]. rewrite omap_app, app_length. rewrite (requests_other (f_cnt k m)) by done. cbn. lia. }
      assert (Hnet2 : ∀ k m id, Aw (ac_net s') k m id = Aw (ac_net s) k m id).
      { intros k m id. cbn [s' next ac_net]. rewrite omap_app, app_length. rewrite (requests_other (f_ans k m id)) by done. cbn. lia. }
      split.
      + intros m k Hm. rewrite Hcf, Hnet. cbn [s' next ac_net ac_lost]. rewrite omap_app, app_length, app_length. rewrite requests_count by (by rewrite (v_dom _ _ _ Hi)).
        rewrite Es. fold k0. destruct (decide (k = k0)) as [->|Hne].
        * destruct (Hq m Hm) as (-> & -> & -> & ->). unfold due. rewrite lookup_app_r, Nat.sub_diag by done. cbn [lookup list_lookup].
          destruct (decide (m = n)) as [->|]; [rewrite decide_False, decide_True by tauto; done|]. rewrite decide_True, decide_False by naive_solver. by destruct (negb (is_local opts) && pub).
        * rewrite due_snoc_ne by done. rewrite !decide_False by naive_solver. pose proof (c_cnt _ _ Hc m k Hm). cbn. lia.
      + intros m k. rewrite Hnet, Hcf, app_length. cbn [s' next ac_lost]. intros H. destruct (Hch m k) as [-> _].
        destruct (decide (m = n)) as [->|]; [|apply (c_empty _ _ Hc); lia]. rewrite Hsn. destruct (decide (k0 = k)) as [->|]; [rewrite decide_True in H by done; cbn in H; lia|].
        rewrite <-(sent_node s n nd) by done. apply (c_empty _ _ Hc). lia.
      + intros d m r c k Hin. cbn [s' next ac_net] in Hin. apply elem_of_app in Hin as [Hin|Hin].
        2:{ unfold requests in Hin. destruct (negb (is_local opts) && pub); [|by apply elem_of_nil in Hin]. by apply elem_of_list_fmap in Hin as (? & ? & _). }
        rewrite (c_way _ _ Hc _ _ _ _ _ Hin). f_equal. destruct (Hch m k) as [-> _]. destruct (decide (m = n)) as [->|]; [|done].
        rewrite Hsn. destruct (decide (k0 = k)) as [<-|]; [apply Cw_none in Hin; lia|]. by apply sent_node.
      + intros m k c. rewrite Hcf. intros [Hin|Hin]%elem_of_app.
        * rewrite (c_val _ _ Hc _ _ _ Hin). f_equal. destruct (Hch m k) as [-> _]. destruct (decide (m = n)) as [->|]; [|done].
          rewrite Hsn. destruct (decide (k0 = k)) as [<-|]; [|by apply sent_node]. destruct (omap (g_cnt k0 n) (ac_log s)); [by apply elem_of_nil in Hin|done].
        * case_decide as Hd; [|by apply elem_of_nil in Hin]. destruct Hd as [<- <-]. apply elem_of_list_singleton in Hin as ->.
          destruct (Hch n k0) as [-> _]. rewrite decide_True by done. rewrite Hsn, decide_True by done. by rewrite fmap_length.
      + intros m k id. rewrite Haf, Hnet2. cbn [s' next ac_lost]. destruct (Hch m k) as [-> ->]. destruct (decide (m = n)) as [->|]; [|apply (c_ans _ _ Hc)].
        rewrite Hsn, Hwn. destruct (decide (k0 = k)) as [<-|]; [destruct (Ha0 id) as (-> & -> & ->); lia|]. rewrite <-(sent_node s n nd), <-(wait_node s n nd) by done. apply (c_ans _ _ Hc).
      + intros m k. destruct (Hch m k) as [-> _]. destruct (decide (m = n)) as [->|]; [|apply (c_nodup _ _ Hc)]. rewrite Hsn.
        destruct (decide (k0 = k)) as [<-|]; [|rewrite <-(sent_node s n nd) by done; apply (c_nodup _ _ Hc)].
        rewrite <-list_fmap_compose. by rewrite (list_fmap_id).
    - (* TNothing *)
      eapply cons_move; [exact Hc|done|by apply Hsame|done|done|done|by left|done].
    - (* TEcho *)
      eapply cons_move; [exact Hc|done|by apply Hsame| | | |by left|]; cbn [next ac_net ac_log ac_lost].
      + intros m k. rewrite (len_delete (f_req k m) _ _ _ Hx). unfold one, f_req at 3. cbn. rewrite decide_False by naive_solver. lia.
      + intros m k. rewrite (len_delete (λ x, f_cnt k m x.2) _ _ _ Hx). unfold one. cbn. lia.
      + intros d' m r c k. apply elem_delete.
      + intros m k id. rewrite (len_delete (λ x, f_ans k m id x.2) _ _ _ Hx). unfold one. cbn. lia.
    - (* TReq *)
      pose proof (elem_of_list_lookup_2 _ _ _ Hx) as Hin. destruct (v_net _ _ _ Hi _ Hin) as [Hd _]. cbn in Hd.
      assert (1 ≤ Rq (ac_net s) t d) as Hone. { eapply one_elem; [exact Hin|]. unfold one, f_req. cbn. by rewrite decide_True. }
      pose proof (c_cnt _ _ Hc d t Hd) as Hdt. pose proof (due_le h t d) as Hle. destruct (quiet h s d t Hc ltac:(lia)) as (Hs0 & Hw0 & Ha0).
      rewrite (sent_node s d nd) in Hs0 by done. rewrite (wait_node s d nd) in Hw0 by done.
      set (nd' := wrote t (There u rid t) l nd). set (s' := next _ _ _ _ _).
      assert (Hsn : ∀ k, sentn nd' k = if decide (t = k) then (λ id, (id, an_ids nd)) <$> l else sentn nd k).
      { intros k. unfold nd'. rewrite sentn_wrote. case_decide; [subst k; by rewrite Hs0|]. by rewrite app_nil_r. }
      assert (Hwn : ∀ k, waitn nd' k = if decide (t = k) then (λ id, (id, an_ids nd)) <$> l else waitn nd k).
      { intros k. unfold nd'. rewrite waitn_wrote; [case_decide; [subst k; by rewrite Hw0|]; by rewrite app_nil_r|].
        intros id pid H%elem_sentn. by eapply v_written in H as [? _]; [|by eapply v_node]. }
      assert (Hch : ∀ m k, sent s' m k = (if decide (m = d) then sentn nd' k else sent s m k) ∧ waiting s' m k = (if decide (m = d) then waitn nd' k else waiting s m k))
        by (intros m k; by eapply sent_insert).
      assert (Hnet : ∀ k m, Cw (ac_net s') k m = Cw (ac_net s) k m + if decide (d = m ∧ t = k) then 1 else 0).
      { intros k m. cbn [s' next ac_net]. rewrite len_snoc, (len_delete (λ x, f_cnt k m x.2) _ _ _ Hx). unfold one. cbn. case_decide; lia. }
      assert (Hnet1 : ∀ k m, Rq (ac_net s') k m + (if decide (d = m ∧ t = k) then 1 else 0) = Rq (ac_net s) k m).
      { intros k m. cbn [s' next ac_net]. rewrite len_snoc, (len_delete (f_req k m) _ _ _ Hx). unfold one. cbn. dec. }
      assert (Hnet2 : ∀ k m id, Aw (ac_net s') k m id = Aw (ac_net s) k m id).
      { intros k m id. cbn [s' next ac_net]. rewrite len_snoc, (len_delete (λ x, f_ans k m id x.2) _ _ _ Hx). unfold one. cbn. lia. }
      assert (Hold : ∀ m k, (m = d → k = t → False) → sent s' m k = sent s m k ∧ waiting s' m k = waiting s m k).
      { intros m k Hne. destruct (Hch m k) as [-> ->]. destruct (decide (m = d)) as [->|]; [|done]. rewrite Hsn, Hwn. rewrite !decide_False by naive_solver.
        split; symmetry; [by apply sent_node|by apply wait_node]. }
      assert (Hnew : sent s' d t = ((λ id, (id, an_ids nd)) <$> l) ∧ waiting s' d t = ((λ id, (id, an_ids nd)) <$> l)).
      { destruct (Hch d t) as [-> ->]. rewrite !decide_True by done. by rewrite Hsn, Hwn, !decide_True. }
      split.
      + intros m k Hm. rewrite due_snoc_quiet by done. pose proof (c_cnt _ _ Hc m k Hm). specialize (Hnet k m). specialize (Hnet1 k m). cbn [s' next ac_log ac_lost] in *. lia.
      + intros m k H. rewrite Hnet in H. cbn [s' next ac_log ac_lost] in H. case_decide as Hmk; [lia|]. destruct (Hold m k) as [-> _]; [naive_solver|]. apply (c_empty _ _ Hc). lia.
      + intros d' m r c k Hm. cbn [s' next ac_net] in Hm. apply elem_of_app in Hm as [Hm%elem_delete|Hm].
        * destruct (decide (d = m ∧ t = k)) as [[<- <-]|Hne]; [apply Cw_none in Hm; lia|]. destruct (Hold m k) as [-> _]; [naive_solver|]. by eapply (c_way _ _ Hc).
        * apply elem_of_list_singleton in Hm. assert (m = d ∧ k = t ∧ c = length l) as (-> & -> & ->) by (by simplify_eq). destruct Hnew as [-> _]. by rewrite fmap_length.
      + intros m k c Hm. cbn [s' next ac_log] in Hm. destruct (decide (d = m ∧ t = k)) as [[<- <-]|Hne].
        * destruct (omap (g_cnt t d) (ac_log s)); [by apply elem_of_nil in Hm|cbn in Hdt; lia].
        * destruct (Hold m k) as [-> _]; [naive_solver|]. by eapply (c_val _ _ Hc).
      + intros m k id. rewrite Hnet2. cbn [s' next ac_log ac_lost]. destruct (decide (d = m ∧ t = k)) as [[<- <-]|Hne].
        * destruct Hnew as [-> ->]. destruct (Ha0 id) as (-> & -> & ->). lia.
        * destruct (Hold m k) as [-> ->]; [naive_solver|]. apply (c_ans _ _ Hc).
      + intros m k. destruct (decide (d = m ∧ t = k)) as [[<- <-]|Hne].
        * destruct Hnew as [-> _]. rewrite <-list_fmap_compose. by rewrite (list_fmap_id).
        * destruct (Hold m k) as [-> _]; [naive_solver|]. apply (c_nodup _ _ Hc).
    - (* TCnt *)
      destruct (v_net _ _ _ Hi _ (elem_of_list_lookup_2 _ _ _ Hx)) as [_ (_ & _ & Hcall)]. cbn in Hcall. pose proof (Htag _ _ _ _ _ _ _ Hx Hnd Hreq Hcall) as ->.
      eapply cons_move; [exact Hc|done|by apply Hsame| | | | |]; cbn [next ac_net ac_log ac_lost].
      + intros m k. rewrite (len_delete (f_req k m) _ _ _ Hx). unfold one. cbn. lia.
      + intros m k. rewrite (len_delete (λ x, f_cnt k m x.2) _ _ _ Hx), len_snoc. unfold one. cbn. unfold g_cnt at 2. cbn. dec.
      + intros d' m r c' k. apply elem_delete.
      + intros m k c'. rewrite omap_snoc. intros [H|H]%elem_of_app; [by left|right]. unfold g_cnt in H. cbn in H. case_decide as Hd; [|by apply elem_of_nil in H].
        destruct Hd as [<- <-]. apply elem_of_list_singleton in H as ->. exists d, rid. by eapply elem_of_list_lookup_2.
      + intros m k id. rewrite (len_delete (λ x, f_ans k m id x.2) _ _ _ Hx), len_snoc. unfold one. cbn. unfold g_ans at 2. cbn. case_decide; lia.
    - (* TCntLost *)
      eapply cons_move; [exact Hc|done|by apply Hsame| | | |by left|]; cbn [next ac_net ac_log ac_lost].
      + intros m k. rewrite (len_delete (f_req k m) _ _ _ Hx). unfold one. cbn. lia.
      + intros m k. rewrite (len_delete (λ x, f_cnt k m x.2) _ _ _ Hx), len_snoc. unfold one. cbn. lia.
      + intros d' m r c' k. apply elem_delete.
      + intros m k id. rewrite (len_delete (λ x, f_ans k m id x.2) _ _ _ Hx), len_snoc. unfold one. cbn. lia.
    - (* TAns *)
      destruct (v_net _ _ _ Hi _ (elem_of_list_lookup_2 _ _ _ Hx)) as [_ (_ & _ & Hcall)]. cbn in Hcall. pose proof (Htag _ _ _ _ _ _ _ Hx Hnd Hreq Hcall) as ->.
      eapply cons_move; [exact Hc|done|by apply Hsame| | | | |]; cbn [next ac_net ac_log ac_lost].
      + intros m k. rewrite (len_delete (f_req k m) _ _ _ Hx). unfold one. cbn. lia.
      + intros m k. rewrite (len_delete (λ x, f_cnt k m x.2) _ _ _ Hx), len_snoc. unfold one. cbn. unfold g_cnt at 2. cbn. case_decide; lia.
      + intros d' m r c' k. apply elem_delete.
      + intros m k c'. rewrite omap_snoc. intros [H|H]%elem_of_app; [by left|]. unfold g_cnt in H. cbn in H. case_decide; by apply elem_of_nil in H.
      + intros m k id. rewrite (len_delete (λ x, f_ans k m id x.2) _ _ _ Hx), len_snoc. unfold one. cbn. unfold g_ans at 2. cbn. dec.
    - (* TAnsLost *)
      eapply cons_move; [exact Hc|done|by apply Hsame| | | |by left|]; cbn [next ac_net ac_log ac_lost].
      + intros m k. rewrite (len_delete (f_req k m) _ _ _ Hx). unfold one. cbn. lia.
      + intros m k. rewrite (len_delete (λ x, f_cnt k m x.2) _ _ _ Hx), len_snoc. unfold one. cbn. lia.
      + intros d' m r c' k. apply elem_delete.
      + intros m k id. rewrite (len_delete (λ x, f_ans k m id x.2) _ _ _ Hx), len_snoc. unfold one. cbn. lia.
    - (* TNoAck *)
      eapply cons_move; [exact Hc|done|by apply Hsame|done|done|done|by left|done].
    - (* THere *)
      set (nd' := set_acks (delete (id, pid)) nd). set (s' := next _ _ _ _ _).
      assert (Hch : ∀ m k, sent s' m k = sent s m k).
      { intros m k. destruct (sent_insert s s' n nd nd' m k Hnd eq_refl) as [-> _]. destruct (decide (m = n)) as [->|]; [|done]. symmetry. exact (sent_node s n nd k Hnd). }
      assert (Hw : ∀ m k i, of (waiting s m k) i = of (waiting s' m k) i + if decide (n = m ∧ e = k ∧ id = i) then 1 else 0).
      { intros m k i. destruct (sent_insert s s' n nd nd' m k Hnd eq_refl) as [_ ->]. destruct (decide (m = n)) as [->|]; [|rewrite decide_False by naive_solver; lia].
        rewrite (wait_node s n nd) by done. rewrite (waitn_answer h n nd id pid _ k i (v_node _ _ _ Hi _ _ Hnd) Hack) by (rewrite <-(sent_node s n nd) by done; apply (c_nodup _ _ Hc)).
        cbn [cont_tag]. fold nd'. dec. }
      assert (Hcf : ∀ k m, Cf (ac_log s') k m = Cf (ac_log s) k m).
      { intros k m. cbn [s' next ac_log]. rewrite omap_snoc. unfold g_cnt at 2. cbn. case_decide; by rewrite app_nil_r. }
      assert (Hcw : ∀ k m, Cw (ac_net s') k m = Cw (ac_net s) k m).
      { intros k m. cbn [s' next ac_net]. done. }
      split.
      + intros m k Hm. rewrite due_snoc_quiet by done. pose proof (c_cnt _ _ Hc m k Hm). rewrite Hcf, Hcw. cbn [s' next ac_net ac_log ac_lost]. lia.
      + intros m k H. rewrite Hcf, Hcw in H. rewrite Hch. by apply (c_empty _ _ Hc).
      + intros d m r c k Hm. rewrite Hch. cbn [s' next ac_net] in Hm. by eapply (c_way _ _ Hc).
      + intros m k c Hm. rewrite Hch. rewrite Hcf in Hm. by apply (c_val _ _ Hc).
      + intros m k i. rewrite Hch. pose proof (c_ans _ _ Hc m k i) as Ha. rewrite Hw in Ha. rewrite <-Ha. cbn [s' next ac_net ac_log ac_lost]. rewrite len_snoc. unfold one. cbn. unfold g_ans at 2. cbn. dec.
      + intros m k. rewrite Hch. apply (c_nodup _ _ Hc).
    - (* TThere *)
      set (nd' := set_acks (delete (id, pid)) nd). set (s' := next _ _ _ _ _).
      assert (Hch : ∀ m k, sent s' m k = sent s m k).
      { intros m k. destruct (sent_insert s s' n nd nd' m k Hnd eq_refl) as [-> _]. destruct (decide (m = n)) as [->|]; [|done]. symmetry. exact (sent_node s n nd k Hnd). }
      assert (Hw : ∀ m k i, of (waiting s m k) i = of (waiting s' m k) i + if decide (n = m ∧ t = k ∧ id = i) then 1 else 0).
      { intros m k i. destruct (sent_insert s s' n nd nd' m k Hnd eq_refl) as [_ ->]. destruct (decide (m = n)) as [->|]; [|rewrite decide_False by naive_solver; lia].
        rewrite (wait_node s n nd) by done. rewrite (waitn_answer h n nd id pid _ k i (v_node _ _ _ Hi _ _ Hnd) Hack) by (rewrite <-(sent_node s n nd) by done; apply (c_nodup _ _ Hc)).
        cbn [cont_tag]. fold nd'. dec. }
      assert (Hcf : ∀ k m, Cf (ac_log s') k m = Cf (ac_log s) k m).
      { intros k m. cbn [s' next ac_log]. done. }
      assert (Hcw : ∀ k m, Cw (ac_net s') k m = Cw (ac_net s) k m).
      { intros k m. cbn [s' next ac_net]. rewrite len_snoc. unfold one. cbn. lia. }
      split.
      + intros m k Hm. rewrite due_snoc_quiet by done. pose proof (c_cnt _ _ Hc m k Hm). rewrite Hcf, Hcw. cbn [s' next ac_net ac_log ac_lost]. rewrite len_snoc. unfold one. cbn. lia.
      + intros m k H. rewrite Hcf, Hcw in H. rewrite Hch. by apply (c_empty _ _ Hc).
      + intros d m r c k Hm. rewrite Hch. cbn [s' next ac_net] in Hm. apply elem_of_app in Hm as [Hm|Hm%elem_of_list_singleton]; [by eapply (c_way _ _ Hc)|done].
      + intros m k c Hm. rewrite Hch. rewrite Hcf in Hm. by apply (c_val _ _ Hc).
      + intros m k i. rewrite Hch. pose proof (c_ans _ _ Hc m k i) as Ha. rewrite Hw in Ha. rewrite <-Ha. cbn [s' next ac_net ac_log ac_lost]. rewrite len_snoc. unfold one. cbn. dec.
      + intros m k. rewrite Hch. apply (c_nodup _ _ Hc).
    - (* TExpire *)
      eapply cons_move; [exact Hc|done| |done|done|done|by left|done]. intros m k. by eapply sent_alter.
    - (* TTimer *)
      eapply cons_move; [exact Hc|done|by apply Hsame|done| |done| |]; cbn [next ac_net ac_log ac_lost].
      + intros m k. rewrite len_snoc. unfold one. unfold g_cnt at 2. cbn. case_decide; lia.
      + intros m k c'. rewrite omap_snoc. intros [H|H]%elem_of_app; [by left|]. unfold g_cnt in H. cbn in H. case_decide; by apply elem_of_nil in H.
      + intros m k id. rewrite len_snoc. unfold one. unfold g_ans at 2. cbn. case_decide; lia.
    - (* TLocal *)
      eapply cons_move; [exact Hc|done| |done|done|done|by left|done]. intros m k. eapply sent_alter; [done|]. intros nd Hnd. cbn. split; [|done].
      destruct (local_op_wf l (an_ns nd)) as [_ E]; [|by eapply v_wf, v_node|done]. intros id o ->. exact Hop.
  Qed.
  Lemma run_cons h : Forall (aop_ok uids) h → rids_ok h → cons h (run h).
  Proof.
    induction h as [|op h IH] using rev_ind; intros Hok Hr; [apply init_cons|].
    apply Forall_app in Hok as [Hok [Hop _]%Forall_cons]. pose proof (rids_ok_app _ _ Hr). rewrite arun_snoc. apply step_cons; [by apply run_inv|by apply IH|done|done].
  Qed.
End count.
