(** Proofs about [Adapter.v]. *)
From Verif Require Import Base GoTypes Rooms RoomsSpec RoomsProofs Adapter AdapterSpec.

Section adapter_proofs.
  Context {P : Type}.
  Notation st := (nspace P).
  Implicit Types s : st.

  Lemma apply_ns_rw (cb : asock → st → st) o opts s :
    ∃ rooms except, apply_ns cb o opts s =
      apply_sockets ns_reg ns_sockets cb (o_rooms o) (o_ids o) (o_sids o) rooms except s ∧
      default ∅ rooms = opt_rooms opts ∧ default ∅ except = opt_except opts.
  Proof. destruct opts as [op|]; simpl; [|by exists (Some ∅), (Some ∅)]. exists (bo_rooms op), (bo_except op). done. Qed.

  Lemma selected_matches s rooms except id : ns_wf s →
    selected (ns_reg s) rooms except id ∧ is_Some (ns_sockets s !! id) ↔ matches s rooms except id.
  Proof.
    intros (_ & _ & _ & Hk). unfold selected, matches, in_room, listed.
    case_decide as Hr; [subst|]; split.
    - intros [[? ?] ?]. split_and!; [done|by left|done].
    - intros (Hl & _ & He). split_and!; [by apply Hk|done|done].
    - intros [[? ?] ?]. split_and!; [done|by right|done].
    - intros (Hl & [?|?] & He); [done|]. split_and!; done.
  Qed.

  Lemma apply_wf (I : st → Prop) (cb : asock → st → st) o opts s :
    orders_ok o → ns_wf s → I s → local_cb ns_reg ns_sockets cb I →
    let res := apply_ns cb o opts s in
    NoDup res.2 ∧ I res.1 ∧
    (∀ id, id ∈ res.2 ↔ matches s (opt_rooms opts) (opt_except opts) id) ∧
    res.1 = run_cbs ns_sockets cb res.2 s.
  Proof.
    intros (O1 & O2 & O3 & _) Hwf HI Hcb.
    destruct (apply_ns_rw cb o opts s) as (rooms & except & E & Er & Ee). cbv zeta. rewrite E.
    destruct (apply_spec ns_reg ns_sockets cb I Hcb (o_rooms o) (o_ids o) (o_sids o) rooms except s O1 O2 O3 HI)
      as (H1 & H2 & _ & H3).
    split_and!; [done|done| |apply apply_cbs].
    intros id. rewrite H3, Er, Ee. by apply selected_matches.
  Qed.

  Lemma upd_reg_reg f s : ns_reg (upd_reg f s) = (f (ns_reg s)).1.
  Proof. unfold upd_reg. by destruct (f (ns_reg s)). Qed.
  Lemma upd_reg_sockets f s : ns_sockets (upd_reg f s) = ns_sockets s.
  Proof. unfold upd_reg. by destruct (f (ns_reg s)). Qed.
  Lemma upd_reg_written f s : ns_written (upd_reg f s) = ns_written s.
  Proof. unfold upd_reg. by destruct (f (ns_reg s)). Qed.

  Lemma ns_wf_alt s : ns_wf s ↔ reg_inv (ns_reg s) ∧
    (∀ id a, ns_sockets s !! id = Some a → as_id a = id ∧ as_can_join a = true) ∧
    (∀ id, listed s id → is_Some (rg_sids (ns_reg s) !! id)).
  Proof. unfold ns_wf, reg_inv, in_room. naive_solver. Qed.

  (** *** Broadcast and queries *)
  Lemma query_spec o opts s : orders_ok o → ns_wf s →
    NoDup (fetch_sockets o opts s) ∧
    ∀ id, id ∈ fetch_sockets o opts s ↔ matches s (opt_rooms opts) (opt_except opts) id.
  Proof.
    intros Ho Hwf. destruct (apply_wf (λ _, True) (λ _ s, s) o opts s) as (H1 & _ & H2 & _); [done..| |done].
    intros s' id a _ _. split; [apply agree_refl|done].
  Qed.
  Lemma sockets_in_spec o rooms s id : orders_ok o → ns_wf s →
    id ∈ sockets_in o rooms s ↔ matches s (default ∅ rooms) ∅ id.
  Proof.
    intros Ho Hwf. unfold sockets_in. rewrite elem_of_list_to_set.
    destruct (query_spec o (Some (BOpts rooms None None)) s Ho Hwf) as [_ H]. apply H.
  Qed.

  Lemma run_write p l s : ns_wf s → (∀ id, id ∈ l → listed s id) →
    run_cbs ns_sockets (sock_write p) l s =
    NSpace (ns_reg s) (ns_sockets s) (ns_events s) (ns_written s ++ ((λ id, (id, p)) <$> l)).
  Proof.
    revert s. induction l as [|id l IH]; intros s Hwf Hl; simpl.
    { destruct s; simpl. by rewrite app_nil_r. }
    destruct (Hl id) as [a Ha]; [set_solver|]. rewrite Ha.
    destruct Hwf as (W1 & W2 & W3 & W4). destruct (W3 id a Ha) as [E _].
    rewrite IH; [|done|set_solver]. simpl. by rewrite <- app_assoc, E.
  Qed.
  Lemma broadcast_spec p o opts s : orders_ok o → ns_wf s →
    ∃ l, NoDup l ∧ (∀ id, id ∈ l ↔ matches s (opt_rooms opts) (opt_except opts) id) ∧
      broadcast p o opts s = NSpace (ns_reg s) (ns_sockets s) (ns_events s) (ns_written s ++ ((λ id, (id, p)) <$> l)).
  Proof.
    intros Ho Hwf. destruct (apply_wf (λ _, True) (sock_write p) o opts s) as (H1 & _ & H2 & H3); [done..| |].
    { intros s' id a _ _. split; [split; done|done]. }
    eexists. split_and!; [exact H1|exact H2|]. unfold broadcast. rewrite H3. apply run_write; [done|].
    intros id Hid. apply H2 in Hid. apply Hid.
  Qed.

  Lemma filter_fst_NoDup (p : P) l id : NoDup l →
    length (filter (λ w : sid * P, w.1 = id) ((λ i, (i, p)) <$> l)) = if decide (id ∈ l) then 1 else 0.
  Proof.
    induction l as [|x l IH]; intros Hnd; [done|]. apply NoDup_cons in Hnd as [Hx Hnd]. specialize (IH Hnd).
    rewrite fmap_cons, filter_cons. cbn [fst]. destruct (decide (x = id)) as [->|].
    - cbn [length]. rewrite IH, decide_False, decide_True by set_solver. done.
    - rewrite IH. destruct (decide (id ∈ l)); [rewrite decide_True by set_solver|rewrite decide_False by set_solver]; done.
  Qed.
  Lemma broadcast_once p o opts s : orders_ok o → ns_wf s →
    ∃ new, ns_written (broadcast p o opts s) = ns_written s ++ new ∧
      ∀ id, length (filter (λ w, w.1 = id) new) ≤ 1 ∧
            (length (filter (λ w, w.1 = id) new) = 1 ↔ matches s (opt_rooms opts) (opt_except opts) id).
  Proof.
    intros Ho Hwf. destruct (broadcast_spec p o opts s Ho Hwf) as (l & H1 & H2 & ->). eexists. split; [done|].
    intros id. rewrite filter_fst_NoDup by done. rewrite <- H2. case_decide; split; (done || lia).
  Qed.

  (** *** AddSockets *)
  Lemma sock_join_fields rs a s : as_can_join a = true →
    ns_sockets (sock_join rs a s) = ns_sockets s ∧ ns_written (sock_join rs a s) = ns_written s ∧
    (∀ id r, in_room (sock_join rs a s) id r ↔ in_room s id r ∨ (id = as_id a ∧ r ∈ rs)) ∧
    (reg_inv (ns_reg s) → reg_inv (ns_reg (sock_join rs a s))) ∧
    (∀ id, is_Some (rg_sids (ns_reg (sock_join rs a s)) !! id) ↔ is_Some (rg_sids (ns_reg s) !! id) ∨ id = as_id a).
  Proof.
    intros E. unfold sock_join. rewrite E. unfold in_room.
    rewrite upd_reg_reg, upd_reg_sockets, upd_reg_written. split_and!; [done|done| | |].
    - intros id r. by rewrite add_all_members, elem_of_remove_dups.
    - apply add_all_inv.
    - intros id. apply add_all_known.
  Qed.
  Lemma add_sockets_spec o opts rs s : orders_ok o → ns_wf s →
    let s' := add_sockets o opts rs s in
    (∀ id r, in_room s' id r ↔ in_room s id r ∨ (matches s (opt_rooms opts) (opt_except opts) id ∧ r ∈ rs)) ∧
    ns_sockets s' = ns_sockets s ∧ ns_written s' = ns_written s ∧ ns_wf s'.
  Proof.
    intros Ho Hwf. pose proof Hwf as Hwf0. apply ns_wf_alt in Hwf as (W1 & W2 & W3).
    destruct (apply_wf (λ x, ns_sockets x = ns_sockets s) (sock_join rs) o opts s) as (H1 & _ & H2 & H3); [done..| |].
    { intros s' id a Hs Ha. rewrite Hs in Ha. destruct (W2 id a Ha) as [E1 E2].
      destruct (sock_join_fields rs a s' E2) as (F1 & F2 & F3 & _). split; [|by rewrite F1].
      split; [|by rewrite F1]. intros id' r Hne. fold (in_room (sock_join rs a s') id' r). rewrite F3. naive_solver. }
    cbv zeta. unfold add_sockets. rewrite H3.
    set (l := (apply_ns (sock_join rs) o opts s).2) in *.
    assert (∀ l0 s0, ns_sockets s0 = ns_sockets s → (∀ id, id ∈ l0 → listed s id) →
      let s' := run_cbs ns_sockets (sock_join rs) l0 s0 in
      (∀ id r, in_room s' id r ↔ in_room s0 id r ∨ (id ∈ l0 ∧ r ∈ rs)) ∧
      ns_sockets s' = ns_sockets s0 ∧ ns_written s' = ns_written s0 ∧
      (reg_inv (ns_reg s0) → reg_inv (ns_reg s')) ∧
      (∀ id, is_Some (rg_sids (ns_reg s') !! id) ↔ is_Some (rg_sids (ns_reg s0) !! id) ∨ id ∈ l0)) as Hrun.
    { intros l0. induction l0 as [|id l0 IH]; intros s0 Hs0 Hl0; simpl.
      { split_and!; [set_solver +|done|done|done|set_solver +]. }
      destruct (Hl0 id) as [a Ha]; [apply elem_of_list_here|]. rewrite Hs0, Ha. destruct (W2 id a Ha) as [E1 E2].
      destruct (sock_join_fields rs a s0 E2) as (F1 & F2 & F3 & F4 & F5).
      destruct (IH (sock_join rs a s0)) as (G1 & G2 & G3 & G4 & G5); [by rewrite F1|set_solver +Hl0|].
      split_and!.
      - intros id' r. rewrite G1, F3. set_solver +E1.
      - by rewrite G2, F1.
      - by rewrite G3, F2.
      - auto.
      - intros id'. rewrite G5, F5. set_solver +E1. }
    destruct (Hrun l s) as (G1 & G2 & G3 & G4 & G5); [done| |].
    { intros id Hid. apply H2 in Hid. apply Hid. }
    split_and!; [|done|done|].
    - intros id r. rewrite G1, H2. done.
    - apply ns_wf_alt. split_and!; [auto|by rewrite G2|]. intros id. unfold listed. rewrite G2, G5. auto.
  Qed.

  (** *** DelSockets *)
  Lemma sock_leave_list_fields rep rs a s :
    let s' := sock_leave_list rep rs a s in
    ns_sockets s' = ns_sockets s ∧ ns_written s' = ns_written s ∧
    (∀ id r, in_room s' id r ↔ in_room s id r ∧ ¬ (id = as_id a ∧ r ∈ rs)) ∧
    (reg_inv (ns_reg s) → reg_inv (ns_reg s')) ∧
    (∀ id, is_Some (rg_sids (ns_reg s') !! id) ↔ is_Some (rg_sids (ns_reg s) !! id)).
  Proof.
    unfold sock_leave_list. revert s. induction rs as [|r0 rs IH]; intros s; simpl.
    { split_and!; try done. set_solver. }
    destruct (IH (sock_leave rep r0 a s)) as (G1 & G2 & G3 & G4 & G5).
    unfold sock_leave in *. rewrite upd_reg_sockets, upd_reg_written, ?upd_reg_reg in *.
    split_and!; [done|done| | |].
    - intros id r. rewrite G3. unfold in_room at 1. rewrite upd_reg_reg, del_members. unfold in_room. set_solver.
    - intros. apply G4. by apply del_inv.
    - intros id. by rewrite G5, del_known.
  Qed.
  Lemma del_sockets_spec rep o opts rs s : orders_ok o → ns_wf s →
    let s' := del_sockets rep o opts rs s in
    (∀ id r, in_room s' id r ↔ in_room s id r ∧ ¬ (matches s (opt_rooms opts) (opt_except opts) id ∧ r ∈ rs)) ∧
    ns_sockets s' = ns_sockets s ∧ ns_written s' = ns_written s ∧ ns_wf s'.
  Proof.
    intros Ho Hwf. pose proof Hwf as Hwf0. apply ns_wf_alt in Hwf as (W1 & W2 & W3).
    destruct (apply_wf (λ x, ns_sockets x = ns_sockets s) (sock_leave_list rep rs) o opts s) as (H1 & _ & H2 & H3); [done..| |].
    { intros s' id a Hs Ha. rewrite Hs in Ha. destruct (W2 id a Ha) as [E1 E2].
      destruct (sock_leave_list_fields rep rs a s') as (F1 & F2 & F3 & _). split; [|by rewrite F1].
      split; [|by rewrite F1]. intros id' r Hne. fold (in_room (sock_leave_list rep rs a s') id' r). rewrite F3. naive_solver. }
    cbv zeta. unfold del_sockets. rewrite H3.
    set (l := (apply_ns (sock_leave_list rep rs) o opts s).2) in *.
    assert (∀ l0 s0, ns_sockets s0 = ns_sockets s → (∀ id, id ∈ l0 → listed s id) →
      let s' := run_cbs ns_sockets (sock_leave_list rep rs) l0 s0 in
      (∀ id r, in_room s' id r ↔ in_room s0 id r ∧ ¬ (id ∈ l0 ∧ r ∈ rs)) ∧
      ns_sockets s' = ns_sockets s0 ∧ ns_written s' = ns_written s0 ∧
      (reg_inv (ns_reg s0) → reg_inv (ns_reg s')) ∧
      (∀ id, is_Some (rg_sids (ns_reg s') !! id) ↔ is_Some (rg_sids (ns_reg s0) !! id))) as Hrun.
    { intros l0. induction l0 as [|id l0 IH]; intros s0 Hs0 Hl0; simpl.
      { split_and!; [set_solver +|done|done|done|set_solver +]. }
      destruct (Hl0 id) as [a Ha]; [apply elem_of_list_here|]. rewrite Hs0, Ha. destruct (W2 id a Ha) as [E1 E2].
      destruct (sock_leave_list_fields rep rs a s0) as (F1 & F2 & F3 & F4 & F5).
      destruct (IH (sock_leave_list rep rs a s0)) as (G1 & G2 & G3 & G4 & G5); [by rewrite F1|set_solver +Hl0|].
      split_and!.
      - intros id' r. rewrite G1, F3. set_solver +E1.
      - by rewrite G2, F1.
      - by rewrite G3, F2.
      - auto.
      - intros id'. rewrite G5, F5. set_solver +E1. }
    destruct (Hrun l s) as (G1 & G2 & G3 & G4 & G5); [done| |].
    { intros id Hid. apply H2 in Hid. apply Hid. }
    split_and!; [|done|done|].
    - intros id r. rewrite G1, H2. done.
    - apply ns_wf_alt. split_and!; [auto|by rewrite G2|]. intros id. unfold listed. rewrite G2, G5. auto.
  Qed.

  (** *** DisconnectSockets *)
  Lemma sock_close_fields rep o a s : (∀ id, order_ok (o id)) → reg_inv (ns_reg s) →
    let s' := sock_close rep o a s in
    ns_sockets s' = delete (as_id a) (ns_sockets s) ∧ ns_written s' = ns_written s ∧
    (∀ id r, in_room s' id r ↔ in_room s id r ∧ id ≠ as_id a) ∧
    reg_inv (ns_reg s') ∧
    (∀ id, is_Some (rg_sids (ns_reg s') !! id) ↔ is_Some (rg_sids (ns_reg s) !! id) ∧ id ≠ as_id a).
  Proof.
    intros Ho Hi. unfold sock_close. cbn [ns_sockets ns_written ns_reg]. unfold in_room; cbn [ns_reg].
    rewrite upd_reg_reg, upd_reg_sockets, upd_reg_written. split_and!; [done|done| | |].
    - intros id r. by apply del_all_members.
    - by apply del_all_inv.
    - intros id. apply del_all_known.
  Qed.
  Lemma disconnect_sockets_spec rep o opts s : orders_ok o → ns_wf s →
    let s' := disconnect_sockets rep o opts s in
    let gone := matches s (opt_rooms opts) (opt_except opts) in
    (∀ id r, in_room s' id r ↔ in_room s id r ∧ ¬ gone id) ∧
    (∀ id, (gone id → ns_sockets s' !! id = None) ∧ (¬ gone id → ns_sockets s' !! id = ns_sockets s !! id)) ∧
    ns_written s' = ns_written s ∧ ns_wf s'.
  Proof.
    intros Ho Hwf. pose proof Hwf as Hwf0. apply ns_wf_alt in Hwf as (W1 & W2 & W3).
    assert (∀ id, order_ok (o_leave o id)) as Hol by apply Ho.
    destruct (apply_wf (λ x, reg_inv (ns_reg x) ∧ ∀ id a, ns_sockets x !! id = Some a → as_id a = id ∧ as_can_join a = true)
       (sock_close rep (o_leave o)) o opts s) as (H1 & _ & H2 & H3); [done..| |].
    { intros s' id a [Hi Hs] Ha. destruct (Hs id a Ha) as [E1 E2].
      destruct (sock_close_fields rep (o_leave o) a s' Hol Hi) as (F1 & F2 & F3 & F4 & _). split.
      - split.
        + intros id' r Hne. fold (in_room (sock_close rep (o_leave o) a s') id' r). rewrite F3. naive_solver.
        + intros id' Hne. rewrite F1, E1, lookup_delete_ne by done. done.
      - split; [done|]. intros id' a'. rewrite F1, lookup_delete_Some. intros [_ ?]. by apply Hs. }
    cbv zeta. unfold disconnect_sockets. rewrite H3.
    set (l := (apply_ns (sock_close rep (o_leave o)) o opts s).2) in *.
    assert (∀ l0 s0, NoDup l0 → (∀ id, id ∉ l0 ∨ ns_sockets s0 !! id = ns_sockets s !! id) →
      (∀ id, id ∈ l0 → listed s id) → reg_inv (ns_reg s0) →
      let s' := run_cbs ns_sockets (sock_close rep (o_leave o)) l0 s0 in
      (∀ id r, in_room s' id r ↔ in_room s0 id r ∧ id ∉ l0) ∧
      (∀ id, ns_sockets s' !! id = if decide (id ∈ l0) then None else ns_sockets s0 !! id) ∧
      ns_written s' = ns_written s0 ∧
      reg_inv (ns_reg s') ∧
      (∀ id, is_Some (rg_sids (ns_reg s') !! id) ↔ is_Some (rg_sids (ns_reg s0) !! id) ∧ id ∉ l0)) as Hrun.
    { intros l0. induction l0 as [|id l0 IH]; intros s0 Hnd Hs0 Hl0 Hi; simpl.
      { split_and!; [set_solver +|done|done|done|set_solver +]. }
      apply NoDup_cons in Hnd as [Hnin Hnd].
      destruct (Hl0 id) as [a Ha]; [apply elem_of_list_here|].
      destruct (Hs0 id) as [Hc|Hs0id]; [set_solver +Hc|]. rewrite Hs0id, Ha. destruct (W2 id a Ha) as [E1 E2].
      destruct (sock_close_fields rep (o_leave o) a s0 Hol Hi) as (F1 & F2 & F3 & F4 & F5).
      destruct (IH (sock_close rep (o_leave o) a s0)) as (G1 & G2 & G3 & G4 & G5).
      { done. }
      { intros id'. destruct (decide (id' ∈ l0)) as [Hin|]; [right|by left]. rewrite F1, E1.
        rewrite lookup_delete_ne by (intros ->; done). destruct (Hs0 id') as [Hc|]; [set_solver +Hc Hin|done]. }
      { set_solver +Hl0. } { done. }
      split_and!.
      - intros id' r. rewrite G1, F3, E1. set_solver +.
      - intros id'. rewrite G2, F1, E1. destruct (decide (id' ∈ l0)) as [Hin|Hin].
        + rewrite decide_True by (by apply elem_of_list_further). done.
        + destruct (decide (id' = id)) as [->|Hne].
          * rewrite lookup_delete, decide_True by (apply elem_of_list_here). done.
          * rewrite lookup_delete_ne, decide_False by (done || set_solver +Hin Hne). done.
      - by rewrite G3, F2.
      - done.
      - intros id'. rewrite G5, F5, E1. set_solver +. }
    destruct (Hrun l s) as (G1 & G2 & G3 & G4 & G5); [done|by right| |done|].
    { intros id Hid. apply H2 in Hid. apply Hid. }
    split_and!.
    - intros id r. by rewrite G1, H2.
    - intros id. rewrite <- H2, G2. split; intros; [by rewrite decide_True|by rewrite decide_False].
    - done.
    - apply ns_wf_alt. split_and!; [done| |].
      + intros id a. rewrite G2. case_decide; [done|]. apply W2.
      + intros id [a Ha]. rewrite G2 in Ha. case_decide; [done|]. rewrite G5. split; [|done]. apply W3. by exists a.
  Qed.
End adapter_proofs.
