(** Proofs about operations addressed to one socket of a cluster. *)
From Verif Require Import Base GoTypes Rooms RoomsSpec RoomsProofs Adapter AdapterSpec AdapterProofs Operator OperatorSpec OperatorProofs OperatorProofs2
  Cluster ClusterSpec ClusterProofs OneSocketSpec.

Section one.
  Context (csr : bool) (uids : gset string).
  Notation run := (crun csr uids).

  (** What the rooms and sockets of one server look like in a history [h]. *)
  Record own_rooms (h : list cop) (nd : node) : Prop := {
    ow_listed : ∀ i r, in_room nd i r → listed nd i;
    ow_own : ∀ i r, opened h r → in_room nd i r ↔ i = r ∧ listed nd r;
    ow_opened : ∀ i, listed nd i → opened h i }.
  Definition gspares (h : list cop) (g : gop) : Prop :=
    match g with GJoin rs | GLeave rs => ∀ r, r ∈ rs → ¬ opened h r | _ => True end.

  Lemma own_local h n l (nd : node) : ns_wf nd → (∀ id o, l = LClose id o → order_ok o) → spares h (CLocal n l) → (∀ id, l = LOpen id → opened h id) →
    own_rooms h nd → own_rooms h (local_op l nd) ∧ ∀ i, listed (local_op l nd) i → listed nd i ∨ l = LOpen i.
  Proof.
    intros Hwf Ho Hs Hop [O1 O2 O3]. apply ns_wf_alt in Hwf as (X1 & X2 & X3). destruct l as [id|id rs|id r0|id o]; cbn [local_op]; destruct (ns_sockets nd !! id) as [a|] eqn:E.
    1,4,6,8: (split; [done|by left]).
    - set (s1 := NSpace _ _ _ _).
      destruct (sock_join_fields [id] (ASock id true) s1 eq_refl) as (F1 & _ & F3 & _ & _). cbn [as_id] in F3.
      assert (Hl : ∀ i, listed (sock_join [id] (ASock id true) s1) i ↔ listed nd i ∨ i = id).
      { intros i. unfold listed. rewrite F1. unfold s1. cbn [ns_sockets]. destruct (decide (i = id)) as [->|Hne]; [rewrite lookup_insert|rewrite lookup_insert_ne by done]; [split; [by right|by eauto]|]. split; [by left|by intros [?|?]]. }
      assert (Hr : ∀ i r, in_room s1 i r ↔ in_room nd i r) by done.
      assert (Hn : ¬ listed nd id) by (intros [? ?]; congruence).
      split; [split|].
      + intros i r. rewrite F3, Hr, Hl. intros [H|[-> _]]; [left; by eapply O1|by right].
      + intros i r Hr0. rewrite F3, Hr, Hl, (O2 i r Hr0), elem_of_list_singleton. split; [intros [[-> ?]|[-> ->]]; auto|]. intros [-> [?| ->]]; auto.
      + intros i. rewrite Hl. intros [?| ->]; [by apply O3|by apply Hop].
      + intros i. rewrite Hl. intros [?| ->]; [by left|by right].
    - destruct (X2 _ _ E) as [Ea Ec]. destruct (sock_join_fields rs a nd Ec) as (F1 & _ & F3 & _ & _).
      assert (Hl : ∀ i, listed (sock_join rs a nd) i ↔ listed nd i) by (intros i; unfold listed; by rewrite F1).
      assert (Hid : listed nd id) by by eexists.
      split; [split|intros i Hi; left; by apply Hl].
      + intros i r. rewrite F3, Hl. intros [H|[-> _]]; [by eapply O1|]. by rewrite Ea.
      + intros i r Hr. rewrite F3, Hl, (O2 i r Hr). split; [|tauto]. intros [?|[-> Hin]]; [done|]. rewrite Ea. cbn in Hs. by rewrite (Hs r Hin Hr).
      + intros i. rewrite Hl. apply O3.
    - destruct (X2 _ _ E) as [Ea Ec]. destruct (sock_leave_list_fields true [r0] a nd) as (F1 & _ & F3 & _ & _). cbn [sock_leave_list foldl] in *.
      assert (Hl : ∀ i, listed (sock_leave true r0 a nd) i ↔ listed nd i) by (intros i; unfold listed; by rewrite F1).
      split; [split|intros i Hi; left; by apply Hl].
      + intros i r. rewrite F3, Hl. intros [H _]. by eapply O1.
      + intros i r Hr. rewrite F3, Hl, (O2 i r Hr), elem_of_list_singleton, Ea. split; [tauto|]. intros [-> H]. split; [done|]. intros [-> ->]. cbn in Hs. done.
      + intros i. rewrite Hl. apply O3.
    - destruct (X2 _ _ E) as [Ea Ec]. destruct (sock_close_fields true (λ _, o) a nd) as (F1 & _ & F3 & _ & _); [intros _; by eapply Ho|done|].
      assert (Hl : ∀ i, listed (sock_close true (λ _, o) a nd) i ↔ listed nd i ∧ i ≠ id).
      { intros i. unfold listed. rewrite F1, Ea. destruct (decide (i = id)) as [->|Hne]; [rewrite lookup_delete|rewrite lookup_delete_ne by done]; [split; [by intros [? ?]|by intros [_ ?]]|tauto]. }
      split; [split|intros i Hi; left; by apply Hl].
      + intros i r. rewrite F3, Hl, Ea. intros [H ?]. split; [by eapply O1|done].
      + intros i r Hr. rewrite F3, Hl, (O2 i r Hr), Ea. split; [intros [[-> ?] ?]; auto|]. intros (-> & ? & ?). auto.
      + intros i. rewrite Hl. intros [? _]. by apply O3.
  Qed.
  Lemma own_base h tag g opts off os (nd : node) : ns_wf nd → orders_ok os → gspares h g → own_rooms h nd →
    own_rooms h (base_op csr tag g opts off os nd) ∧ ∀ i, listed (base_op csr tag g opts off os nd) i → listed nd i.
  Proof.
    intros Hwf Hos Hs Hown. pose proof Hown as [O1 O2 O3]. destruct g as [ty ack data|rs|rs|].
    - cbn [base_op]. match goal with |- context [broadcast (tag, ?d) _ _ _] => destruct (broadcast_spec (tag, d) os opts nd Hos Hwf) as (l & _ & _ & ->) end. split; [|done]. split; done.
    - destruct (base_op_bulk csr tag (GJoin rs) opts off os nd Hos Hwf ltac:(done)) as (_ & H1 & H2). cbn in Hs. unfold listed. rewrite H2. split; [|done].
      split; unfold listed; rewrite ?H2; [|  |done].
      + intros i r. rewrite H1. intros [H|[[Hl _] _]]; [by eapply O1|done].
      + intros i r Hr. rewrite H1, (O2 i r Hr). split; [|tauto]. intros [?|[_ Hin]]; [done|]. by destruct (Hs r Hin).
    - destruct (base_op_bulk csr tag (GLeave rs) opts off os nd Hos Hwf ltac:(done)) as (_ & H1 & H2). cbn in Hs. unfold listed. rewrite H2. split; [|done].
      split; unfold listed; rewrite ?H2; [|  |done].
      + intros i r. rewrite H1. intros [H _]. by eapply O1.
      + intros i r Hr. rewrite H1, (O2 i r Hr). split; [tauto|]. intros H. split; [done|]. intros [_ Hin]. by destruct (Hs r Hin).
    - destruct (base_op_bulk csr tag GDisconnect opts off os nd Hos Hwf ltac:(done)) as (_ & H1 & H2).
      set (nd' := base_op csr tag GDisconnect opts off os nd) in *. set (hit := matches nd (opt_rooms opts) (opt_except opts)) in *.
      assert (Hl : ∀ i, listed nd' i → listed nd i ∧ ¬ hit i).
      { intros i [b Hb]. destruct (H2 i) as [A B]. assert (¬ hit i) as Hn by (intros Hh; rewrite (A Hh) in Hb; done). split; [|done]. rewrite (B Hn) in Hb. by exists b. }
      assert (Hl' : ∀ i, listed nd i → ¬ hit i → listed nd' i). { intros i [b Hb] Hn. destruct (H2 i) as [_ B]. exists b. by rewrite (B Hn). }
      split; [split|].
      + intros i r. rewrite H1. intros [H Hn]. apply Hl'; [by eapply O1|done].
      + intros i r Hr. rewrite H1, (O2 i r Hr). split; [intros [[-> ?] ?]; auto|]. intros [-> [? ?]%Hl]. auto.
      + intros i [? _]%Hl. by apply O3.
      + intros i H. by apply Hl.
  Qed.

  (** The invariant: [g] is what happened so far of [h]. *)
  Record oinv (h : list cop) (s : cluster) : Prop := {
    oi_own : ∀ m nd, cl_nodes s !! m = Some nd → own_rooms h nd;
    oi_once : ∀ m m' id, open_on s m id → open_on s m' id → m = m';
    oi_net : ∀ d x, (d, x) ∈ cl_net s → gspares h (cm_op x) }.

  Lemma oinv_alter h s s' n f : cinv uids s → oinv h s → cl_nodes s' = alter f n (cl_nodes s) → (∀ d x, (d, x) ∈ cl_net s' → gspares h (cm_op x)) →
    (∀ nd, cl_nodes s !! n = Some nd → ns_wf nd → own_rooms h nd → own_rooms h (f nd) ∧ ∀ i, listed (f nd) i → listed nd i ∨ ∀ m, ¬ open_on s m i) → oinv h s'.
  Proof.
    intros Hc [I1 I2 I3] Hn Hnet Hf.
    assert (Hop : ∀ m id, open_on s' m id → open_on s m id ∨ (m = n ∧ ∀ m, ¬ open_on s m id)).
    { intros m id (nd & E & Hl). rewrite Hn in E. apply lookup_alter_Some in E as [(<- & nd0 & E & ->)|[_ E]].
      - destruct (Hf nd0 E) as [_ H]; [by eapply ci_wf|by eapply I1|]. destruct (H id Hl) as [?|?]; [left; by exists nd0|by right].
      - left. by exists nd. }
    split; [| |done].
    - intros m nd E. rewrite Hn in E. apply lookup_alter_Some in E as [(<- & nd0 & E & ->)|[_ E]]; [|by eapply I1]. apply Hf; [done|by eapply ci_wf|by eapply I1].
    - intros m m' id H1 H2. apply Hop in H1 as [H1|[-> N1]]; apply Hop in H2 as [H2|[-> N2]]; [by eapply I2|by destruct (N2 m)|by destruct (N1 m')|done].
  Qed.
  Lemma oinv_run h g rest : h = g ++ rest → Forall (cop_ok uids) h → disciplined csr uids h → oinv h (run g).
  Proof.
    intros Eh Hok Hd. revert rest Eh. induction g as [|op g IH] using rev_ind; intros rest Eh.
    { unfold crun, cinit. cbn. split; cbn.
      - intros m nd. rewrite lookup_gset_to_gmap_Some. intros [_ <-].
        assert (∀ i r, ¬ in_room (empty_node : node) i r) as He. { intros i r. unfold in_room, members_of. cbn. rewrite lookup_empty. cbn. set_solver. }
        assert (∀ i, ¬ listed (empty_node : node) i) as Hl by (intros i [? H]; done).
        split; [intros i r H; by destruct (He i r)| |intros i H; by destruct (Hl i)]. intros i r _. split; [intros H; by destruct (He i r)|intros [_ H]; by destruct (Hl r)].
      - intros m m' id (nd & E & Hl). cbn in E. apply lookup_gset_to_gmap_Some in E as [_ <-]. by destruct Hl.
      - intros d x H. by apply elem_of_nil in H. }
    rewrite <-app_assoc in Eh. specialize (IH _ Eh). pose proof Hok as Hok'. rewrite Eh in Hok'. apply Forall_app in Hok' as [Hg Hop]. cbn in Hop. apply Forall_cons in Hop as [Hop _].
    destruct (crun_inv csr uids _ Hg) as [Hc _]. pose proof Hd as [Hsp Hfresh].
    assert (Hs : spares h op). { rewrite Forall_forall in Hsp. apply Hsp. rewrite Eh. apply elem_of_app. right. left. }
    rewrite crun_snoc. pose proof IH as [I1 I2 I3].
    assert (Hnet : ∀ d x, (d, x) ∈ cl_net (cstep csr (run g) op) → gspares h (cm_op x)).
    { intros d x Hx. apply net_step in Hx as [Hx|(n & gg & opts & off & echo & e1 & e2 & os & -> & ->)]; [by eapply I3|]. cbn [cm_op]. destruct gg; done. }
    destruct op as [n gg opts pub echo e1 e2 os|i os|n l].
    - destruct Hop as (_ & _ & _ & Ho). assert (gspares h gg) as Hgs by (destruct gg; done).
      assert ((is_local opts = false ∧ pub = None ∧ ∃ ty ack data, gg = GBroadcast ty ack data) ∨ (is_local opts = true ∨ is_Some pub ∨ (∀ ty ack data, gg ≠ GBroadcast ty ack data))) as [(H1&->&ty&ack&data&->)|Hn].
      { destruct (is_local opts); [tauto|]. destruct pub; [right; right; left; eauto|]. destruct gg; [left; eauto 10|right; right; right; done..]. }
      + assert (cl_nodes (cstep csr (run g) (CCall n (GBroadcast ty ack data) opts None echo e1 e2 os)) = cl_nodes (run g)) as E by by apply call_failed.
        split; [rewrite E; done| |done]. intros m m' id. unfold open_on. rewrite E. apply I2.
      + eapply oinv_alter; [done|done|by apply call_nodes|done|]. intros nd E Hwf Hown. edestruct own_base as [A B]; [exact Hwf|exact Ho|exact Hgs|exact Hown|]. split; [exact A|]. intros i Hi. left. by apply B.
    - destruct (cl_net (run g) !! i) as [[d x]|] eqn:Ex.
      + destruct (decide (cm_uid x = d)) as [Eu|Eu].
        * assert (cl_nodes (cstep csr (run g) (CDeliver i os)) = cl_nodes (run g)) as E by by eapply deliver_self.
          split; [rewrite E; done| |done]. intros m m' id. unfold open_on. rewrite E. apply I2.
        * eapply oinv_alter; [done|done|by apply deliver_nodes|done|]. intros nd E Hwf Hown. assert (gspares h (cm_op x)) as Hgs by (eapply I3, elem_of_list_lookup_2, Ex).
          edestruct own_base as [A B]; [exact Hwf|exact Hop|exact Hgs|exact Hown|]. split; [exact A|]. intros j Hj. left. by apply B.
      + assert (cl_nodes (cstep csr (run g) (CDeliver i os)) = cl_nodes (run g)) as E by (unfold cstep; cbn [cstep_body]; by rewrite Ex).
        split; [rewrite E; done| |done]. intros m m' id. unfold open_on. rewrite E. apply I2.
    - eapply oinv_alter; [done|done|reflexivity|done|]. intros nd E Hwf Hown.
      destruct (own_local h n l nd Hwf) as [A B]; [intros id o ->; exact Hop|done| |done|].
      { intros id ->. exists n. rewrite Eh. apply elem_of_app. right. left. }
      split; [done|]. intros i Hi. destruct (B i Hi) as [?| ->]; [by left|right]. intros m (nd' & E' & Hl). by eapply (Hfresh g n i rest).
  Qed.
  Lemma one_matches h g rest m nd id i f : h = g ++ rest → Forall (cop_ok uids) h → disciplined csr uids h → opened h id → cl_nodes (run g) !! m = Some nd →
    matches nd (opt_rooms (Some (to_one id f))) (opt_except (Some (to_one id f))) i ↔ i = id ∧ listed nd id.
  Proof.
    intros Eh Hok Hd Ho E. destruct (oi_own _ _ (oinv_run h g rest Eh Hok Hd) m nd E) as [O1 O2 O3].
    unfold matches, opt_rooms, opt_except. cbn. split.
    - intros (Hl & [H|(r & Hr & Hin)] & _).
      + exfalso. assert (id ∈ ({[id]} : gset room)) as H' by set_solver. rewrite H in H'. set_solver.
      + apply elem_of_singleton in Hr as ->. apply (O2 i id Ho) in Hin. done.
    - intros [-> Hl]. split; [done|]. split; [right; exists id; split; [set_solver|]; by apply O2|]. set_solver.
  Qed.
  Lemma one_list (P : Prop) (id : sid) (l : list sid) : Decision P → NoDup l → (∀ i, i ∈ l ↔ i = id ∧ P) → one_if P id l.
  Proof.
    intros _ Hnd H. split.
    - intros HP. destruct l as [|x l]; [exfalso; by apply (not_elem_of_nil id), H|]. apply NoDup_cons in Hnd as [Hx Hnd]. assert (x = id) as -> by (apply H; left).
      destruct l as [|y l]; [done|]. exfalso. apply Hx. assert (y = id) as -> by (apply H; right; left). left.
    - intros HP. destruct l as [|x l]; [done|]. destruct HP. apply (H x). left.
  Qed.

  (** ** Emission *)
  Lemma listed_dec (nd : node) id : Decision (listed nd id).
  Proof. unfold listed. apply _. Defined.
  Lemma one_writes h g rest m nd id f (d : list value) l (w : list (sid * list value)) : h = g ++ rest → Forall (cop_ok uids) h → disciplined csr uids h → opened h id →
    cl_nodes (run g) !! m = Some nd → NoDup l → (∀ i, i ∈ l ↔ matches nd (opt_rooms (Some (to_one id f))) (opt_except (Some (to_one id f))) i) → w = (λ i, (i, d)) <$> l →
    one_if (open_on (run g) m id) (id, d) w.
  Proof.
    intros Eh Hok Hd Ho E Hnd Hl ->. destruct (one_list (listed nd id) id l (listed_dec nd id) Hnd) as [A B].
    { intros i. rewrite Hl. by eapply one_matches. }
    split.
    - intros (nd' & E' & Hl'). assert (nd' = nd) as -> by congruence. by rewrite A.
    - intros Hn. rewrite B; [done|]. intros Hl'. apply Hn. by exists nd.
  Qed.
  Lemma one_emit h1 n ty ack data id f off echo e1 e2 os h2 :
    let op := CCall n (GBroadcast ty ack data) (Some (to_one id f)) (Some off) echo e1 e2 os in
    let k := length h1 in let h := h1 ++ op :: h2 in let final := run h in
    Forall (cop_ok uids) h → disciplined csr uids h → opened h id → fl_local f = false →
    ∃ d, with_offset csr ty ack data (Some (to_one id f)) off d ∧
      one_if (open_on (run h1) n id) (id, d) (writes final n k) ∧
      ∀ m, m ∈ uids → m ≠ n →
        (in_flight final m k = 1 ∧ writes final m k = []) ∨
        (in_flight final m k = 0 ∧ ∃ a op' b, h2 = a ++ op' :: b ∧ delivers (run (h1 ++ op :: a)) op' m k ∧ one_if (open_on (run (h1 ++ op :: a)) m id) (id, d) (writes final m k)).
  Proof.
    intros op k h final Hok Hd Ho Hf.
    destruct (cluster_broadcast csr uids h1 n ty ack data (Some (to_one id f)) off echo e1 e2 os h2 Hok) as (d & Hd1 & (nd & l & E & Hnd & Hl & Hw) & Hm).
    { intros (o & f' & [= <-] & [= <-] & H). congruence. }
    exists d. split; [done|]. split; [by eapply (one_writes h h1)|]. intros m Hm1 Hm2. destruct (Hm m Hm1 Hm2) as [(A & _ & B)|(A & _ & a & op' & b & nd' & l' & E1 & E2 & E3 & E4 & E5 & E6)]; [by left|right].
    split; [done|]. exists a, op', b. split; [done|]. split; [done|]. eapply (one_writes h (h1 ++ op :: a) (op' :: b)); try done. unfold h. rewrite E1. by rewrite <-app_assoc.
  Qed.
  (** A socket that stays on its server gets the packet, and nobody else does. *)
  Lemma one_stays h1 n ty ack data id f off echo e1 e2 os h2 m :
    let op := CCall n (GBroadcast ty ack data) (Some (to_one id f)) (Some off) echo e1 e2 os in
    let k := length h1 in let h := h1 ++ op :: h2 in let final := run h in
    Forall (cop_ok uids) h → disciplined csr uids h → fl_local f = false → m ∈ uids →
    open_on (run h1) m id → (∀ a b, h2 = a ++ b → open_on (run (h1 ++ op :: a)) m id) → in_flight final m k = 0 ∨ m = n →
    ∃ d, with_offset csr ty ack data (Some (to_one id f)) off d ∧ writes final m k = [(id, d)] ∧ ∀ m', m' ≠ m → writes final m' k = [].
  Proof.
    intros op k h final Hok Hd Hf Hm Ho1 Ho2 Hdone.
    assert (Ho : opened h id). { destruct Ho1 as (nd & E & Hl). destruct (oi_own _ _ (oinv_run h h1 (op :: h2) eq_refl Hok Hd) m nd E) as [_ _ O3]. by apply O3. }
    destruct (one_emit h1 n ty ack data id f off echo e1 e2 os h2 Hok Hd Ho Hf) as (d & Hw & Hn & Hother). fold op in Hn, Hother. fold h in Hn, Hother. fold final in Hn, Hother. fold k in Hn, Hother.
    assert (Hmid : ∀ a op' b, h2 = a ++ op' :: b → open_on (run (h1 ++ op :: a)) m id) by (intros a op' b E; by eapply Ho2).
    assert (Hone : ∀ m' a op' b, h2 = a ++ op' :: b → m' ≠ m → ¬ open_on (run (h1 ++ op :: a)) m' id).
    { intros m' a op' b E Hne Hop. apply Hne. eapply (oi_once h); [|exact Hop|by eapply Hmid]. eapply (oinv_run h (h1 ++ op :: a) (op' :: b)); [unfold h; rewrite E; by rewrite <-app_assoc|done|done]. }
    exists d. split; [done|]. split.
    - destruct (decide (m = n)) as [->|Hne]; [by apply Hn|]. destruct (Hother m Hm Hne) as [[A _]|(A & a & op' & b & E & _ & B)]; [destruct Hdone; [lia|done]|]. apply B. by eapply Hmid.
    - intros m' Hne. destruct (decide (m' = n)) as [->|Hne'].
      + apply Hn. intros H. apply Hne. eapply (oi_once h); [|exact H|exact Ho1]. by eapply (oinv_run h h1 (op :: h2)).
      + destruct (decide (m' ∈ uids)) as [Hin|Hin].
        * destruct (Hother m' Hin Hne') as [[_ A]|(A & a & op' & b & E & _ & B)]; [done|]. apply B. by eapply Hone.
        * unfold writes. destruct (crun_inv csr uids h Hok) as [Hc _]. destruct (cl_nodes final !! m') as [nd|] eqn:E; [|done]. exfalso. apply Hin. rewrite <-(ci_dom _ _ Hc). apply elem_of_dom. by exists nd.
  Qed.

  (** ** Joining, leaving, disconnecting *)
  Lemma one_bulk h g rest m (nd nd' : node) gg id f : h = g ++ rest → Forall (cop_ok uids) h → disciplined csr uids h → opened h id → cl_nodes (run g) !! m = Some nd →
    bulk_effect gg (Some (to_one id f)) nd nd' → acts_on_one gg id nd nd'.
  Proof.
    intros Eh Hok Hd Ho E (Hw & He). destruct (oi_own _ _ (oinv_run h g rest Eh Hok Hd) m nd E) as [O1 _ _].
    pose proof (λ i, one_matches h g rest m nd id i f Eh Hok Hd Ho E) as Hm.
    split; [done|]. destruct gg as [ty ack data|rs|rs|]; [done|destruct He as [H1 H2]..].
    - clear Hd Hok Eh. split; [|split].
      + intros i r Hne. rewrite H1, Hm. split; [|by left]. intros [?|[[? _] _]]; done.
      + intros i _. by rewrite H2.
      + destruct (decide (listed nd id)) as [Hl|Hl].
        * split; [|by rewrite H2]. intros r. rewrite H1, Hm. split; [intros [?|[_ ?]]; auto|intros [?|?]; auto].
        * rewrite H2. split; [by apply eq_None_not_Some|]. intros r. rewrite H1, Hm. intros [H|[[_ H] _]]; [|done]. by apply Hl, (O1 _ r).
    - clear Hd Hok Eh. split; [|split].
      + intros i r Hne. rewrite H1, Hm. split; [by intros [? _]|]. intros H. split; [done|]. by intros [[? _] _].
      + intros i _. by rewrite H2.
      + destruct (decide (listed nd id)) as [Hl|Hl].
        * split; [|by rewrite H2]. intros r. rewrite H1, Hm. split; intros [H1' H2']; (split; [done|]); [intros ?; by apply H2'|by intros [_ ?]].
        * rewrite H2. split; [by apply eq_None_not_Some|]. intros r. rewrite H1. intros [H _]. by apply Hl, (O1 _ r).
    - clear Hd Hok Eh. split; [|split].
      + intros i r Hne. rewrite H1, Hm. split; [by intros [? _]|]. intros H. split; [done|]. by intros [? _].
      + intros i Hne. destruct (H2 i) as [_ H]. apply H. rewrite Hm. by intros [? _].
      + destruct (decide (listed nd id)) as [Hl|Hl].
        * split; [intros r; rewrite H1, Hm; intros [_ H]; by apply H|]. destruct (H2 id) as [H _]. apply H. by apply Hm.
        * split; [|intros r; rewrite H1; intros [H _]; by apply Hl, (O1 _ r)]. destruct (H2 id) as [_ H]. rewrite H; [by apply eq_None_not_Some|]. rewrite Hm. by intros [_ ?].
  Qed.
  Lemma one_bulk_call h1 n gg id f pub echo e1 e2 os :
    let op := CCall n gg (Some (to_one id f)) pub echo e1 e2 os in let h := h1 ++ [op] in
    Forall (cop_ok uids) h → disciplined csr uids h → opened h id → (∀ ty ack data, gg ≠ GBroadcast ty ack data) →
    (∃ nd nd', cl_nodes (run h1) !! n = Some nd ∧ cl_nodes (run h) !! n = Some nd' ∧ acts_on_one gg id nd nd') ∧
    (∀ m, m ≠ n → cl_nodes (run h) !! m = cl_nodes (run h1) !! m).
  Proof.
    intros op h Hok Hd Ho Hg. destruct (bulk_call csr uids h1 n gg (Some (to_one id f)) pub echo e1 e2 os Hok Hg) as [(nd & nd' & E & E' & He) Hm].
    split; [|done]. exists nd, nd'. split; [done|]. split; [done|]. by eapply (one_bulk h h1 [op] n).
  Qed.
  Lemma one_bulk_deliver h1 n gg id f off echo e1 e2 os h2 op' m :
    let op := CCall n gg (Some (to_one id f)) (Some off) echo e1 e2 os in
    let h := h1 ++ op :: h2 ++ [op'] in let s := run (h1 ++ op :: h2) in let s' := run h in
    Forall (cop_ok uids) h → disciplined csr uids h → opened h id → (∀ ty ack data, gg ≠ GBroadcast ty ack data) → delivers s op' m (length h1) →
    (m ≠ n → ∃ nd nd', cl_nodes s !! m = Some nd ∧ cl_nodes s' !! m = Some nd' ∧ acts_on_one gg id nd nd') ∧
    (∀ m', m' ≠ m ∨ m = n → cl_nodes s' !! m' = cl_nodes s !! m').
  Proof.
    intros op h s s' Hok Hd Ho Hg Hdel. destruct (bulk_deliver csr uids h1 n gg (Some (to_one id f)) off echo e1 e2 os h2 op' m Hok Hg Hdel) as [H1 H2].
    split; [|done]. intros Hne. destruct (H1 Hne) as (nd & nd' & E & E' & He). exists nd, nd'. split; [done|]. split; [done|]. eapply (one_bulk h (h1 ++ op :: h2) [op'] m); try done. unfold h. by rewrite <-app_assoc.
  Qed.

  (** ** At most once *)
  Lemma opened_here h g rest m id : h = g ++ rest → Forall (cop_ok uids) h → disciplined csr uids h → open_on (run g) m id → CLocal m (LOpen id) ∈ g.
  Proof.
    intros Eh Hok Hd. revert rest Eh. induction g as [|op g IH] using rev_ind; intros rest Eh.
    { intros (nd & E & Hl). unfold crun, cinit in E. cbn in E. apply lookup_gset_to_gmap_Some in E as [_ <-]. by destruct Hl. }
    rewrite <-app_assoc in Eh. specialize (IH _ Eh). pose proof Hok as Hok'. rewrite Eh in Hok'. apply Forall_app in Hok' as [Hg Hop]. cbn in Hop. apply Forall_cons in Hop as [Hop _].
    destruct (crun_inv csr uids _ Hg) as [Hc _]. pose proof (oinv_run h g _ Eh Hok Hd) as [I1 I2 I3]. pose proof Hd as [Hsp _].
    assert (Hs : spares h op). { rewrite Forall_forall in Hsp. apply Hsp. rewrite Eh. apply elem_of_app. right. left. }
    rewrite crun_snoc.
    assert (Hcase : ∀ n f, cl_nodes (cstep csr (run g) op) = alter f n (cl_nodes (run g)) →
      (∀ nd, cl_nodes (run g) !! n = Some nd → ns_wf nd → own_rooms h nd → ∀ i, listed (f nd) i → listed nd i ∨ op = CLocal n (LOpen i)) →
      open_on (cstep csr (run g) op) m id → CLocal m (LOpen id) ∈ g ++ [op]).
    { intros n f Hn Hf (nd & E & Hl). rewrite Hn in E. apply elem_of_app. apply lookup_alter_Some in E as [(<- & nd0 & E & ->)|[_ E]]; [|left; apply IH; by exists nd].
      destruct (Hf nd0 E (ci_wf _ _ Hc _ _ E) (I1 _ _ E) id Hl) as [Hl'| ->]; [left; apply IH; by exists nd0|right; left]. }
    assert (Hsame : cl_nodes (cstep csr (run g) op) = cl_nodes (run g) → open_on (cstep csr (run g) op) m id → CLocal m (LOpen id) ∈ g ++ [op]).
    { intros E (nd & En & Hl). apply elem_of_app. left. apply IH. exists nd. by rewrite <-E. }
    destruct op as [n gg opts pub echo e1 e2 os|i os|n l].
    - destruct Hop as (_ & _ & _ & Ho). assert (gspares h gg) as Hgs by (destruct gg; done).
      assert ((is_local opts = false ∧ pub = None ∧ ∃ ty ack data, gg = GBroadcast ty ack data) ∨ (is_local opts = true ∨ is_Some pub ∨ (∀ ty ack data, gg ≠ GBroadcast ty ack data))) as [(H1&->&ty&ack&data&->)|Hn].
      { destruct (is_local opts); [tauto|]. destruct pub; [right; right; left; eauto|]. destruct gg; [left; eauto 10|right; right; right; done..]. }
      + apply Hsame. by apply call_failed.
      + eapply Hcase; [by apply call_nodes|]. intros nd E Hwf Hown i Hi. left. edestruct own_base as [_ B]; [exact Hwf|exact Ho|exact Hgs|exact Hown|]. by apply B.
    - destruct (cl_net (run g) !! i) as [[d x]|] eqn:Ex.
      + destruct (decide (cm_uid x = d)) as [Eu|Eu]; [apply Hsame; by eapply deliver_self|].
        eapply Hcase; [by apply deliver_nodes|]. intros nd E Hwf Hown j Hj. left. assert (gspares h (cm_op x)) as Hgs by (eapply I3, elem_of_list_lookup_2, Ex).
        edestruct own_base as [_ B]; [exact Hwf|exact Hop|exact Hgs|exact Hown|]. by apply B.
      + apply Hsame. unfold cstep. cbn [cstep_body]. by rewrite Ex.
    - eapply Hcase; [reflexivity|]. intros nd E Hwf Hown i Hi.
      destruct (own_local h n l nd Hwf) as [_ B]; [intros id' o ->; exact Hop|done| |done|].
      { intros id' ->. exists n. rewrite Eh. apply elem_of_app. right. left. }
      destruct (B i Hi) as [?| ->]; [by left|by right].
  Qed.
  Lemma one_at_most_once h1 n ty ack data id f off echo e1 e2 os h2 m0 :
    let op := CCall n (GBroadcast ty ack data) (Some (to_one id f)) (Some off) echo e1 e2 os in
    let k := length h1 in let h := h1 ++ op :: h2 in let final := run h in
    Forall (cop_ok uids) h → disciplined csr uids h → opened h id → fl_local f = false → (∀ m, CLocal m (LOpen id) ∈ h → m = m0) →
    ∃ d, with_offset csr ty ack data (Some (to_one id f)) off d ∧ (writes final m0 k = [] ∨ writes final m0 k = [(id, d)]) ∧ ∀ m, m ≠ m0 → writes final m k = [].
  Proof.
    intros op k h final Hok Hd Ho Hf Hone.
    destruct (one_emit h1 n ty ack data id f off echo e1 e2 os h2 Hok Hd Ho Hf) as (d & Hw & Hn & Hother). fold op in Hn, Hother. fold h in Hn, Hother. fold final in Hn, Hother. fold k in Hn, Hother.
    assert (Hopen : ∀ g rest m, h = g ++ rest → open_on (run g) m id → m = m0).
    { intros g rest m E Hm. apply Hone. rewrite E. apply elem_of_app. left. by eapply (opened_here h). }
    assert (Hall : ∀ m, m ∈ uids → one_if (open_on (run h1) m id) (id, d) (writes final m k) ∨ writes final m k = [] ∨ ∃ g rest, h = g ++ rest ∧ one_if (open_on (run g) m id) (id, d) (writes final m k)).
    { intros m Hm. destruct (decide (m = n)) as [->|Hne]; [by left|]. destruct (Hother m Hm Hne) as [[_ A]|(_ & a & op' & b & E & _ & A)]; [by right; left|].
      right. right. exists (h1 ++ op :: a), (op' :: b). split; [unfold h; rewrite E; by rewrite <-app_assoc|done]. }
    exists d. split; [done|].
    assert (Hcase : ∀ g rest m, h = g ++ rest → one_if (open_on (run g) m id) (id, d) (writes final m k) → (writes final m k = [(id, d)] ∧ m = m0) ∨ writes final m k = []).
    { intros g rest m E [A B]. assert (open_on (run g) m id ∨ ¬ open_on (run g) m id) as [H|H].
      { unfold open_on. destruct (cl_nodes (run g) !! m) as [nd|] eqn:En; [|right; by intros (? & ? & _)].
        destruct (listed_dec nd id) as [Hl|Hl]; [left; by exists nd|right]. intros (nd' & [= <-] & H). done. }
      - left. split; [by apply A|by eapply Hopen].
      - right. by apply B. }
    assert (Hev : ∀ m, (writes final m k = [(id, d)] ∧ m = m0) ∨ writes final m k = []).
    { intros m. destruct (decide (m ∈ uids)) as [Hin|Hin].
      - destruct (Hall m Hin) as [A|[A|(g & rest & E & A)]]; [by eapply (Hcase h1 (op :: h2))|by right|by eapply Hcase].
      - right. unfold writes. destruct (crun_inv csr uids h Hok) as [Hc _]. destruct (cl_nodes final !! m) as [nd|] eqn:E; [|done]. exfalso. apply Hin. rewrite <-(ci_dom _ _ Hc). apply elem_of_dom. by exists nd. }
    split.
    - destruct (Hev m0) as [[? _]|?]; auto.
    - intros m Hne. destruct (Hev m) as [[_ ?]|?]; done.
  Qed.
End one.

(** ** The operators *)
Lemma timeouts_target ts t t' : chain_target (MTimeout <$> ts) t t' → t_rooms t' = t_rooms t ∧ t_except t' = t_except t ∧ t_adapter t' = t_adapter t ∧
  fl_timeout (t_flags t') = (match last ts with Some x => Some x | None => fl_timeout (t_flags t) end) ∧
  fl_local (t_flags t') = fl_local (t_flags t) ∧ fl_volatile (t_flags t') = fl_volatile (t_flags t) ∧ fl_single (t_flags t') = fl_single (t_flags t).
Proof.
  intros (H1 & H2 & H3 & _ & H5 & H6 & H7 & _ & _ & _ & H11).
  assert (Hin : ∀ m, m ∈ (MTimeout <$> ts) → ∃ x, m = MTimeout x) by (intros m (x & -> & _)%elem_of_list_fmap; eauto).
  assert (omap timeout_of (MTimeout <$> ts) = ts) as E by (clear; induction ts as [|x ts IH]; csimpl; [done|by rewrite IH]).
  rewrite E in H5. split_and!; try done.
  - apply set_eq. intros r. rewrite H2. split; [|by left]. intros [?|(m & Hm & Hr)]; [done|]. destruct (Hin m Hm) as [x ->]. cbn in Hr. by apply elem_of_nil in Hr.
  - apply set_eq. intros r. rewrite H3. split; [|by left]. intros [?|(m & Hm & Hr)]; [done|]. destruct (Hin m Hm) as [x ->]. cbn in Hr. by apply elem_of_nil in Hr.
  - assert (¬ MLocal ∈ (MTimeout <$> ts)) as N by (intros Hm; by destruct (Hin _ Hm)). destruct (fl_local (t_flags t)), (fl_local (t_flags t')); try done; [destruct H7 as [_ H]; apply H; by left|destruct H7 as [H _]; destruct (H eq_refl); done].
  - assert (¬ MVolatile ∈ (MTimeout <$> ts)) as N by (intros Hm; by destruct (Hin _ Hm)). destruct (fl_volatile (t_flags t)), (fl_volatile (t_flags t')); try done; [destruct H6 as [_ H]; apply H; by left|destruct H6 as [H _]; destruct (H eq_refl); done].
Qed.
Lemma remote_one cs ad id cs2 ts ev args : ev ∉ reserved →
  let w := run_calls (cs ++ CRemote ad id :: cs2) world0 in
  ∃ b f e, w_ops w !! length (w_ops (run_calls cs world0)) = Some b ∧
    fl_single f = true ∧ fl_local f = false ∧ fl_volatile f = false ∧ fl_timeout f = last ts ∧
    let '(b', h') := run_chain (MTimeout <$> ts) b (w_heap w) in
      denote h' b' = Some (Target ad {[id]} ∅ f) ∧ op_emit ev args b' h' = Some e ∧ emission_opts e = Some (to_one id f).
Proof.
  intros Hev w. set (w0 := run_calls cs world0).
  destruct (run_calls_ok cs world0 world0_ok) as [Hw0 _]. fold w0 in Hw0. pose proof Hw0 as (W1 & _).
  destruct (remote_operator_spec ad id (w_heap w0) W1) as (R1 & R2 & R3 & R4).
  assert (Ew : w = run_calls cs2 (run_call (CRemote ad id) w0).1) by (unfold w; rewrite run_calls_app; done).
  assert (E1 : (run_call (CRemote ad id) w0).1 = World (remote_operator ad id (w_heap w0)).2 (w_ops w0 ++ [(remote_operator ad id (w_heap w0)).1]) (w_socks w0)).
  { cbn [run_call]. by destruct (remote_operator ad id (w_heap w0)). }
  destruct (run_call_ok (CRemote ad id) w0 Hw0) as [Hw1 _]. destruct (run_calls_ok cs2 _ Hw1) as [Hw2 Hops]. rewrite <-Ew in Hw2, Hops.
  set (b := (remote_operator ad id (w_heap w0)).1) in *. destruct (Hops (length (w_ops w0)) b) as [Hb Hd]; [rewrite E1; cbn [w_ops]; by apply list_lookup_middle|].
  rewrite E1 in Hd. cbn [w_heap] in Hd. rewrite R3 in Hd. pose proof Hw2 as (W2 & _).
  destruct (run_chain_spec (MTimeout <$> ts) b (w_heap w) _ W2 Hd) as (_ & _ & t' & Ht' & Hc). apply timeouts_target in Hc as (C1 & C2 & C3 & C4 & C5 & C6 & C7). cbn in C1, C2, C3, C4, C5, C6, C7.
  destruct (run_chain (MTimeout <$> ts) b (w_heap w)) as [b' h'] eqn:Er. cbn [fst snd] in Ht'.
  destruct t' as [ad' ro ex f]. cbn in C1, C2, C3, C4, C5, C6, C7. subst ad' ro ex.
  destruct (denote_inv _ _ _ Ht') as (D1 & D2 & D3 & D4). cbn in D1, D2, D3, D4.
  assert (∃ e, op_emit ev args b' h' = Some e ∧ emission_opts e = Some (to_one id f)) as (e & He1 & He2).
  { unfold op_emit. rewrite decide_False by exact Hev. unfold get_set, get_flags. rewrite D1, D2, D3. cbn. destruct (last_ack _); eexists; split; reflexivity. }
  exists b, f, e. split; [exact Hb|]. split; [exact C7|]. split; [exact C5|]. split; [exact C6|]. split; [rewrite C4; by destruct (last ts)|]. rewrite Er. split; [exact Ht'|]. split; [exact He1|exact He2].
Qed.
Lemma world_sock_id c w k s : world_ok w → w_socks w !! k = Some s → ∃ s', w_socks (run_call c w).1 !! k = Some s' ∧ os_id s' = os_id s ∧ os_adapter s' = os_adapter s.
Proof.
  intros Hw Hs. pose proof Hw as (W1 & _). destruct c as [ad|ad id|k' id ad|k'|k' m|k' csr i ev args|i m|i ev args]; cbn [run_call].
  - destruct (new_operator ad None None None (w_heap w)). cbn. by exists s.
  - destruct (remote_operator ad id (w_heap w)). cbn. by exists s.
  - destruct (w_socks w !! k') eqn:E; [by exists s|]. unfold alloc_flags. cbn [fst w_socks]. exists s. rewrite lookup_insert_ne by congruence. done.
  - destruct (w_socks w !! k') as [s0|] eqn:E; [|by exists s]. destruct (sock_operator_spec s0 (w_heap w) W1) as (_ & _ & _ & _ & _ & _ & F1 & F2).
    destruct (sock_operator s0 (w_heap w)) as [[b s'] h]. cbn [fst snd w_socks] in *. destruct (decide (k = k')) as [->|Hne].
    + rewrite lookup_insert. exists s'. assert (s0 = s) as -> by congruence. done.
    + rewrite lookup_insert_ne by done. by exists s.
  - destruct (w_socks w !! k') as [s0|] eqn:E; by exists s.
  - destruct (w_socks w !! k') as [s0|] eqn:E; [|exact (ex_intro _ s (conj Hs (conj eq_refl eq_refl)))]. destruct (sock_emit csr i ev args s0 (w_heap w)) as [[[[e reg] s'] h']|] eqn:Ee; [|exact (ex_intro _ s (conj Hs (conj eq_refl eq_refl)))].
    destruct (sock_emit_spec _ _ _ _ _ _ _ _ _ _ W1 Ee) as (_ & _ & _ & _ & F1 & F2). cbn [fst w_socks]. destruct (decide (k = k')) as [->|Hne].
    + rewrite lookup_insert. exists s'. assert (s0 = s) as -> by congruence. rewrite F1, F2. split; [reflexivity|split; reflexivity].
    + rewrite lookup_insert_ne by done. exact (ex_intro _ s (conj Hs (conj eq_refl eq_refl))).
  - destruct (w_ops w !! i) as [b|]; [|by exists s]. destruct (op_modif m b (w_heap w)). by exists s.
  - destruct (w_ops w !! i) as [b|]; by exists s.
Qed.
Lemma world_socks_id cs w k s : world_ok w → w_socks w !! k = Some s → ∃ s', w_socks (run_calls cs w) !! k = Some s' ∧ os_id s' = os_id s ∧ os_adapter s' = os_adapter s.
Proof.
  revert w s. induction cs as [|c cs IH]; intros w s Hw Hs; [by exists s|]. cbn. destruct (world_sock_id c w k s Hw Hs) as (s1 & E1 & A1 & A2). destruct (run_call_ok c w Hw) as [Hw1 _].
  destruct (IH _ s1 Hw1 E1) as (s2 & E2 & B1 & B2). exists s2. split; [done|]. by rewrite B1, B2.
Qed.
Lemma socket_one cs0 k id ad cs i ev args : w_socks (run_calls cs0 world0) !! k = None → ev ∉ reserved →
  ∃ f data, (run_call (CSockEmit k true i ev args) (run_calls (cs0 ++ CSocket k id ad :: cs) world0)).2 = Some (EBroadcast ad data (to_one id f)) ∧
    flags_law (pending k cs []) f ∧ ((∀ n, last args ≠ Some (VAck n)) → data = VStr ev :: args) ∧ (∀ as' n, args = as' ++ [VAck n] → data = VStr ev :: as').
Proof.
  intros Hk Hev. destruct (socket_modifiers_next_emission cs0 k id ad cs true i ev args Hk Hev) as (e & f & E1 & E2 & E3).
  destruct (run_calls_ok cs0 world0 world0_ok) as [Hw0 _]. destruct (run_call_ok (CSocket k id ad) _ Hw0) as [Hw1 _].
  destruct (world_socks_id cs (run_call (CSocket k id ad) (run_calls cs0 world0)).1 k (OSock id ad (h_next (w_heap (run_calls cs0 world0)))) Hw1) as (s & Es & A1 & A2).
  { cbn [run_call]. rewrite Hk. unfold alloc_flags. cbn [fst w_socks]. by rewrite lookup_insert. }
  cbn in A1, A2. rewrite run_calls_app in E1 |- *. cbn [run_calls foldl] in E1 |- *. fold (run_calls cs (run_call (CSocket k id ad) (run_calls cs0 world0)).1) in E1 |- *.
  set (w := run_calls cs _) in *. cbn [run_call] in E1 |- *. rewrite Es in E1 |- *. unfold sock_emit in *. rewrite decide_False in E1 |- * by exact Hev.
  set (g := get_flags (w_heap w) (os_flags s)) in *. exists g.
  destruct (last_ack (VStr ev :: args)) as [n0|] eqn:El; cbn [snd] in *; injection E1 as <-; cbn in E2; injection E2 as <-; eexists;
    (split; [unfold to_one; rewrite A1, A2; reflexivity|]); (split; [exact E3|]); unfold last_ack in El; (split; [intros Hn|intros as' n ->]).
  - exfalso. destruct args as [|x args] using rev_ind; [done|]. rewrite last_snoc in Hn. rewrite app_comm_cons, last_snoc in El. destruct x; try done. by eapply Hn.
  - rewrite app_comm_cons, removelast_last. done.
  - done.
  - rewrite app_comm_cons, last_snoc in El. done.
Qed.
