(** C68: a namespace with several adapters is so many namespaces. *)
From Verif Require Import Base GoTypes Rooms RoomsSpec RoomsProofs Adapter AdapterSpec AdapterProofs AdapterRun AdapterRunSpec AdapterRunProofs Swap SwapSpec.

Section swap.
  Context {P : Type} (rep : bool).
  Notation st := (swap P). Notation ns := (nspace P).

  Record glob (s : st) : Prop := {
    g_now : 0 < length (sw_regs s);
    g_home : ∀ id e, sw_home s !! id = Some e → e < length (sw_regs s);
    g_sock : ∀ id a, sw_socks s !! id = Some a → as_id a = id ∧ as_can_join a = true ∧ is_Some (sw_home s !! id);
    g_sent : ∀ w, w ∈ sw_written s → is_Some (sw_home s !! w.1) }.
  Record rel (e : nat) (s : st) (n : ns) : Prop := {
    r_reg : sw_reg e s = ns_reg n;
    r_socks : ∀ id, ns_sockets n !! id = if decide (sw_home s !! id = Some e) then sw_socks s !! id else None;
    r_known : ∀ id, is_Some (rg_sids (ns_reg n) !! id) → sw_home s !! id = Some e;
    r_inv : reg_inv (ns_reg n);
    r_sent : filter (λ w, sw_home s !! w.1 = Some e) (sw_written s) = ns_written n }.
  Definition put (e : nat) (n : ns) (N : nat → ns) : nat → ns := λ e', if decide (e' = e) then n else N e'.
  Lemma put_eq e n N : put e n N e = n.
  Proof. unfold put. by rewrite decide_True. Qed.
  Lemma put_ne e e' n N : e' ≠ e → put e n N e' = N e'.
  Proof. intros. unfold put. by rewrite decide_False. Qed.
  Definition R (s : st) (N : nat → ns) : Prop := glob s ∧ ∀ e, rel e s (N e).
  Lemma R_put e s N : R s N → R s (put e (N e) N).
  Proof. intros [G H]. split; [done|]. intros e'. destruct (decide (e' = e)) as [->|Hne]; [by rewrite put_eq|by rewrite put_ne]. Qed.
  Lemma R_ext s N N' : (∀ e, N e = N' e) → R s N → R s N'.
  Proof. intros E [G H]. split; [done|]. intros e. rewrite <- E. apply H. Qed.
  Lemma put_put e n n' N e' : put e n' (put e n N) e' = put e n' N e'.
  Proof. unfold put. by case_decide. Qed.

  (** ** Callbacks *)
  Definition same (s s' : st) : Prop := sw_home s = sw_home s' ∧ length (sw_regs s) = length (sw_regs s').
  Definition cbsim (e : nat) (cb : asock → st → st) (cb' : asock → ns → ns) : Prop :=
    ∀ N s n a, R s (put e n N) → sw_socks s !! as_id a = Some a → sw_home s !! as_id a = Some e →
      R (cb a s) (put e (cb' a n) N) ∧ same (cb a s) s.
  Lemma reg_upd e f (s : st) e' : e < length (sw_regs s) → sw_reg e' (sw_upd e f s) = if decide (e' = e) then f (sw_reg e s) else sw_reg e' s.
  Proof.
    intros Hlt. unfold sw_reg, sw_upd. cbn. case_decide as He.
    - rewrite He. rewrite list_lookup_alter. apply lookup_lt_is_Some in Hlt as [g Hg]. by rewrite Hg.
    - by rewrite list_lookup_alter_ne by done.
  Qed.
  Lemma sim_upd e (f : asock → registry → registry) (F : asock → ns → ns) :
    (∀ a n, ns_reg (F a n) = f a (ns_reg n) ∧ ns_sockets (F a n) = ns_sockets n ∧ ns_written (F a n) = ns_written n) →
    (∀ a g, reg_inv g → reg_inv (f a g)) → (∀ a g id, is_Some (rg_sids (f a g) !! id) → is_Some (rg_sids g !! id) ∨ id = as_id a) →
    cbsim e (λ a, at_home a (f a)) F.
  Proof.
    intros HF Hi Hk N s n a [G H] Ha Hh. unfold at_home. rewrite Hh. pose proof (g_home _ G _ _ Hh) as Hlt. split; [|split; [done|cbn; apply alter_length]]. split.
    - destruct G as [G1 G2 G3 G4]. constructor; cbn; [by rewrite alter_length|by setoid_rewrite alter_length|done|done].
    - intros e'. destruct (HF a n) as (F1 & F2 & F3). destruct (decide (e' = e)) as [->|Hne].
      + specialize (H e). rewrite put_eq in H |- *. destruct H as [H1 H2 H3 H4 H5]. constructor; cbn.
        * rewrite reg_upd, decide_True by done. by rewrite F1, H1.
        * by rewrite F2.
        * intros id. rewrite F1. intros [Hs| ->]%Hk; [by apply H3|done].
        * rewrite F1. by apply Hi.
        * by rewrite F3.
      + specialize (H e'). rewrite put_ne in H |- * by done. destruct H as [H1 H2 H3 H4 H5]. constructor; try done. by rewrite reg_upd, decide_False by done.
  Qed.
  Lemma sim_join e rs : cbsim e (w_join rs) (sock_join rs).
  Proof.
    intros N s n a HR Ha Hh. destruct (g_sock _ (proj1 HR) _ _ Ha) as (_ & Hc & _). unfold w_join, sock_join. rewrite Hc.
    apply (sim_upd e (λ a g, (add_all (as_id a) (remove_dups rs) g).1) (λ a, upd_reg (add_all (as_id a) (remove_dups rs)))); try done.
    - intros b m. by rewrite upd_reg_reg, upd_reg_sockets, upd_reg_written.
    - intros b g. apply add_all_inv.
    - intros b g id. by rewrite add_all_known.
  Qed.
  Lemma sim_leave e r : cbsim e (w_leave rep r) (sock_leave rep r).
  Proof.
    intros N s n a HR Ha Hh. unfold w_leave, sock_leave.
    apply (sim_upd e (λ a g, (del rep (as_id a) r g).1) (λ a, upd_reg (del rep (as_id a) r))); try done.
    - intros b m. by rewrite upd_reg_reg, upd_reg_sockets, upd_reg_written.
    - intros b g. apply del_inv.
    - intros b g id. rewrite del_known. by left.
  Qed.
  Lemma home_socks a f (s : st) : sw_socks (at_home a f s) = sw_socks s ∧ sw_home (at_home a f s) = sw_home s ∧ sw_written (at_home a f s) = sw_written s.
  Proof. unfold at_home. by destruct (sw_home s !! as_id a). Qed.
  Lemma sim_leave_list e rs : cbsim e (w_leave_list rep rs) (sock_leave_list rep rs).
  Proof.
    unfold w_leave_list, sock_leave_list. induction rs as [|r rs IH]; intros N s n a HR Ha Hh; [done|]. cbn [foldl].
    destruct (sim_leave e r N s n a HR Ha Hh) as [HR' [Eh El]]. destruct (IH N (w_leave rep r a s) (sock_leave rep r a n) a HR') as [HR'' [Eh' El']].
    - unfold w_leave. by rewrite (proj1 (home_socks _ _ _)).
    - by rewrite Eh.
    - split; [done|]. split; congruence.
  Qed.
  Lemma sim_close e o : (∀ id, order_ok (o id)) → cbsim e (w_close rep o) (sock_close rep o).
  Proof.
    intros Ho N s n a HR Ha Hh. unfold w_close, sock_close. cbv zeta.
    destruct (sim_upd e (λ a g, (del_all rep (o (as_id a)) (as_id a) g).1) (λ a, upd_reg (del_all rep (o (as_id a)) (as_id a)))) with (N := N) (s := s) (n := n) (a := a) as [[G H] [Eh El]]; try done.
    { intros b m. by rewrite upd_reg_reg, upd_reg_sockets, upd_reg_written. }
    { intros b g. by apply del_all_inv. }
    { intros b g id. rewrite del_all_known. naive_solver. }
    set (s1 := at_home a _ s) in *. set (n1 := upd_reg _ n) in *. cbn [sw_home]. split; [|done]. split.
    - destruct G as [G1 G2 G3 G4]. constructor; cbn; try done. intros id b [_ Hb]%lookup_delete_Some. by apply G3.
    - intros e'. specialize (H e'). destruct (decide (e' = e)) as [->|Hne].
      + rewrite put_eq in *. destruct H as [H1 H2 H3 H4 H5]. constructor; cbn; try done. intros id. destruct (decide (id = as_id a)) as [->|Hid].
        * rewrite !lookup_delete. by destruct (decide _).
        * rewrite !lookup_delete_ne by done. apply H2.
      + rewrite put_ne in * by done. destruct H as [H1 H2 H3 H4 H5]. constructor; cbn; try done. intros id. rewrite H2. destruct (decide (sw_home s1 !! id = Some e')) as [Hd|]; [|done].
        rewrite lookup_delete_ne; [done|]. intros <-. rewrite Eh, Hh in Hd. congruence.
  Qed.
  Lemma sim_write e p : cbsim e (w_write p) (sock_write p).
  Proof.
    intros N s n a [G H] Ha Hh. split; [|done]. split.
    - destruct G as [G1 G2 G3 G4]. constructor; cbn; try done. intros w [?|Hw%elem_of_list_singleton]%elem_of_app; [by apply G4|]. rewrite Hw. cbn. by eexists.
    - intros e'. specialize (H e'). destruct (decide (e' = e)) as [->|Hne].
      + rewrite put_eq in *. destruct H as [H1 H2 H3 H4 H5]. constructor; cbn; try done. rewrite filter_app, H5. f_equal. by rewrite filter_cons_True.
      + rewrite put_ne in * by done. destruct H as [H1 H2 H3 H4 H5]. constructor; cbn; try done. rewrite filter_app, H5, filter_cons_False, filter_nil, app_nil_r; [done|]. cbn. rewrite Hh. congruence.
  Qed.

  (** ** Ranging *)
  Section range.
    Context (e : nat) (cb : asock → st → st) (cb' : asock → ns → ns) (Hcb : cbsim e cb cb') (N : nat → ns) (s0 : st).
    Definition racc (x : st * list sid) (y : ns * list sid) : Prop := R x.1 (put e y.1 N) ∧ x.2 = y.2 ∧ same x.1 s0.
    Lemma at_e s n : R s (put e n N) → rel e s n.
    Proof. intros [_ H]. specialize (H e). by rewrite put_eq in H. Qed.
    Lemma sim_one s n id : R s (put e n N) → sw_home s !! id = Some e →
      match sw_socks s !! id, ns_sockets n !! id with
      | Some a, Some a' => a' = a ∧ R (cb a s) (put e (cb' a n) N) ∧ same (cb a s) s | None, None => True | _, _ => False end.
    Proof.
      intros HR Hh. rewrite (r_socks _ _ _ (at_e _ _ HR)), decide_True by done. destruct (sw_socks s !! id) as [a|] eqn:Ea; [|done].
      destruct (g_sock _ (proj1 HR) _ _ Ea) as (<- & _). split; [done|]. by apply Hcb.
    Qed.
    Lemma sim_ids ex L : ∀ x y, racc x y → (∀ id, id ∈ L → sw_home s0 !! id = Some e) →
      racc (foldl (visit_id sw_socks cb ex) x L) (foldl (visit_id ns_sockets cb' ex) y L).
    Proof.
      induction L as [|id L IH]; intros [s l] [n l'] (HR & El & Es) HL; [done|]. cbn [fst snd] in *. subst l'. cbn [foldl].
      apply IH; [|intros j Hj; apply HL; by right]. unfold visit_id. case_decide; [done|]. pose proof (sim_one s n id HR) as H1. rewrite (proj1 Es) in H1. specialize (H1 (HL id ltac:(by left))).
      destruct (sw_socks s !! id) as [a|], (ns_sockets n !! id) as [a'|]; try done. destruct H1 as (-> & H1 & H2 & H3). split; [done|]. split; [done|]. destruct Es. split; cbn; congruence.
    Qed.
    Lemma sim_all ex L : ∀ x y, racc x y → (∀ id, id ∈ L → sw_home s0 !! id = Some e) →
      racc (foldl (visit_all sw_socks cb ex) x L) (foldl (visit_all ns_sockets cb' ex) y L).
    Proof.
      induction L as [|id L IH]; intros [s l] [n l'] (HR & El & Es) HL; [done|]. cbn [fst snd] in *. subst l'. cbn [foldl].
      apply IH; [|intros j Hj; apply HL; by right]. unfold visit_all. case_decide; [done|]. pose proof (sim_one s n id HR) as H1. rewrite (proj1 Es) in H1. specialize (H1 (HL id ltac:(by left))).
      destruct (sw_socks s !! id) as [a|], (ns_sockets n !! id) as [a'|]; try done. destruct H1 as (-> & H1 & H2 & H3). split; [done|]. split; [done|]. destruct Es. split; cbn; congruence.
    Qed.
    Lemma sim_rooms ex oid L : (∀ r, order_ok (oid r)) → ∀ x y, racc x y → racc (foldl (visit_room (sw_reg e) sw_socks cb oid ex) x L) (foldl (visit_room ns_reg ns_sockets cb' oid ex) y L).
    Proof.
      intros Ho. induction L as [|r L IH]; intros x y HR; [done|]. cbn [foldl]. apply IH. unfold visit_room. pose proof (at_e _ _ (proj1 HR)) as He. rewrite (r_reg _ _ _ He).
      destruct (rg_rooms (ns_reg y.1) !! r) as [ids|] eqn:Er; [|done]. apply sim_ids; [done|]. intros id Hid. rewrite <- (proj1 (proj2 (proj2 HR))). apply (r_known _ _ _ He). rewrite order_elem in Hid by done.
      assert (id ∈ members_of (ns_reg y.1) r) as Hm by (unfold members_of; by rewrite Er). apply (r_inv _ _ _ He) in Hm. unfold rooms_of in Hm.
      destruct (rg_sids (ns_reg y.1) !! id); [by eexists|]. set_solver.
    Qed.
    Lemma sim_apply o opts n : orders_ok o → R s0 (put e n N) → R (w_apply e cb o opts s0) (put e (apply_ns cb' o opts n).1 N) ∧ same (w_apply e cb o opts s0) s0.
    Proof.
      intros (O1 & O2 & O3 & _) HR. assert (∀ rooms except, racc (apply_sockets (sw_reg e) sw_socks cb (o_rooms o) (o_ids o) (o_sids o) rooms except s0)
        (apply_sockets ns_reg ns_sockets cb' (o_rooms o) (o_ids o) (o_sids o) rooms except n)) as Ha.
      { intros rooms except. pose proof (at_e _ _ HR) as He. unfold apply_sockets. rewrite (r_reg _ _ _ He).
        assert (racc (foldl (visit_all sw_socks cb (except_sids (ns_reg n) except)) (s0, []) (o_sids o (dom (rg_sids (ns_reg n)))))
          (foldl (visit_all ns_sockets cb' (except_sids (ns_reg n) except)) (n, []) (o_sids o (dom (rg_sids (ns_reg n)))))) as Hall.
        { apply sim_all; [done|]. intros id. rewrite order_elem by done. intros Hid%elem_of_dom. by apply (r_known _ _ _ He). }
        destruct rooms as [rs|]; [|done]. case_decide; [|done]. by apply sim_rooms. }
      unfold w_apply, apply_ns. destruct opts as [op|]; (split; [apply Ha|apply (Ha _ _)]).
    Qed.
  End range.

  (** ** Steps *)
  Definition mines_ok (s : st) (mines : nat → gset sid) : Prop := ∀ e id, id ∈ mines e ↔ sw_home s !! id = Some e.
  Lemma sim_on v cb cb' o opts (op : nsop P) s N mines : (∀ e, cbsim e cb cb') → (∀ n, ns_step rep n op = (apply_ns cb' o opts n).1) → orders_ok o → R s N → mines_ok s mines →
    R (w_on v cb o opts s) (λ e, foldl (ns_step rep) (N e) (if goes e (sw_now s) (mines e) v then [op] else [])) ∧ same (w_on v cb o opts s) s.
  Proof.
    intros Hcb Hop Ho HR Hm. assert (∀ e, goes e (sw_now s) (mines e) v = bool_decide (w_via v s = Some e)) as Hg.
    { intros e. unfold goes, w_via. destruct v as [|e'|id].
      - apply bool_decide_ext. naive_solver.
      - apply bool_decide_ext. case_decide; naive_solver lia.
      - apply bool_decide_ext. apply Hm. }
    unfold w_on. destruct (w_via v s) as [e0|] eqn:Ev.
    - destruct (sim_apply e0 cb cb' (Hcb e0) N s o opts (N e0) Ho (R_put e0 s N HR)) as [H1 H2]. split; [|done]. eapply R_ext; [|exact H1]. intros e. rewrite Hg. unfold put.
      destruct (decide (e = e0)) as [->|Hne]; [rewrite bool_decide_true by done; cbn; by rewrite Hop|]. by rewrite bool_decide_false by congruence.
    - split; [|done]. eapply R_ext; [|exact HR]. intros e. by rewrite Hg, bool_decide_false by done.
  Qed.
  Lemma sim_sock id f F (op : nsop P) s N mines : (∀ e, cbsim e f F) → (∀ n, ns_step rep n op = match ns_sockets n !! id with Some a => F a n | None => n end) → R s N → mines_ok s mines →
    R (w_sock id f s) (λ e, foldl (ns_step rep) (N e) (if decide (id ∈ mines e) then [op] else [])) ∧ same (w_sock id f s) s.
  Proof.
    intros Hcb Hop HR Hm. unfold mines_ok in Hm. unfold w_sock. destruct (sw_socks s !! id) as [a|] eqn:Ea.
    - destruct (g_sock _ (proj1 HR) _ _ Ea) as (Ei & _ & [e0 Hh]). destruct (Hcb e0 N s (N e0) a (R_put e0 s N HR)) as [H1 H2]; [by rewrite Ei|by rewrite Ei|].
      split; [|done]. eapply R_ext; [|exact H1]. intros e. unfold put. destruct (decide (e = e0)) as [->|Hne].
      + rewrite decide_True by (by apply Hm). cbn. rewrite Hop. rewrite (r_socks _ _ _ (proj2 HR e0)), decide_True, Ea by done. done.
      + rewrite decide_False; [done|]. rewrite Hm, Hh. congruence.
    - split; [|done]. eapply R_ext; [|exact HR]. intros e. case_decide as Hd; [|done]. cbn. rewrite Hop. rewrite (r_socks _ _ _ (proj2 HR e)), Ea. by case_decide.
  Qed.
  Lemma now_same (s s' : st) : same s s' → sw_now s = sw_now s'.
  Proof. intros [_ E]. unfold sw_now. by rewrite E. Qed.
  Lemma mines_same s s' mines : same s s' → mines_ok s' mines → mines_ok s mines.
  Proof. intros [E _] H e id. rewrite E. apply H. Qed.
  Lemma filter_ext_in {A} (Q Q' : A → Prop) `{∀ x, Decision (Q x), ∀ x, Decision (Q' x)} (l : list A) : (∀ x, x ∈ l → Q x ↔ Q' x) → filter Q l = filter Q' l.
  Proof.
    induction l as [|x l IH]; intros Hx; [done|]. rewrite !filter_cons. rewrite IH by (intros y Hy; apply Hx; by right). specialize (Hx x ltac:(by left)).
    destruct (decide (Q x)), (decide (Q' x)); naive_solver.
  Qed.
  Lemma part_run h : ∀ s N mines, R s N → mines_ok s mines → Forall wop_ok h → NoDup (opened h) → (∀ id, id ∈ opened h → sw_home s !! id = None) →
    R (foldl (w_step rep) s h) (λ e, foldl (ns_step rep) (N e) (part_from e (sw_now s) (mines e) h)).
  Proof.
    induction h as [|op h IH]; intros s N mines HR Hm Hok Hnd Hfr; [done|]. unfold mines_ok in Hm. inversion Hok as [|? ? Ho Hok']; subst.
    assert (∀ s' L, w_step rep s op = s' → R s' (λ e, foldl (ns_step rep) (N e) (L e)) → same s' s → opened (op :: h) = opened h →
      (∀ e, part_from e (sw_now s) (mines e) (op :: h) = L e ++ part_from e (sw_now s) (mines e) h) → R (foldl (w_step rep) s (op :: h)) (λ e, foldl (ns_step rep) (N e) (part_from e (sw_now s) (mines e) (op :: h)))) as Hgo.
    { intros s' L Es HR' Hs Eo Ep. rewrite Eo in Hnd, Hfr. cbn [foldl]. rewrite Es. eapply R_ext; [|eapply (IH s' _ mines HR' (mines_same _ _ _ Hs Hm) Hok' Hnd); intros id Hid; rewrite (proj1 Hs); by apply Hfr].
      intros e. cbn beta. rewrite Ep, foldl_app. by rewrite (now_same _ _ Hs). }
    destruct op as [|id|id rs|id r|id o|v p o opts|v o opts rs|v o opts rs|v o opts].
    - cbn [foldl w_step part_from]. assert (sw_now (Swap (sw_regs s ++ [empty_registry]) (sw_home s) (sw_socks s) (sw_written s)) = S (sw_now s)) as En.
      { unfold sw_now. cbn. rewrite app_length. cbn. pose proof (g_now _ (proj1 HR)). lia. }
      rewrite <- En. apply IH; try done. destruct HR as [[G1 G2 G3 G4] H]. split.
      + constructor; cbn; try done; [rewrite app_length; lia|]. intros id e Hh%G2. rewrite app_length. lia.
      + intros e. destruct (H e) as [H1 H2 H3 H4 H5]. constructor; cbn; try done. rewrite <- H1. unfold sw_reg. cbn.
        destruct (decide (e < length (sw_regs s))) as [Hl|Hl]; [by rewrite lookup_app_l by done|]. rewrite lookup_app_r, (lookup_ge_None_2 (sw_regs s)) by lia.
        destruct (e - length (sw_regs s)) as [|n]; [done|]. by destruct n.
    - (* open *) cbn [foldl w_step part_from]. assert (sw_home s !! id = None) as Hid by (apply Hfr; cbn; by left). cbn in Hnd. apply NoDup_cons in Hnd as [Hni Hnd].
      destruct HR as [[G1 G2 G3 G4] H]. assert (sw_socks s !! id = None) as Hns. { destruct (sw_socks s !! id) as [a|] eqn:Ea; [|done]. destruct (G3 _ _ Ea) as (_ & _ & [e He]). congruence. }
      set (s1 := Swap (sw_regs s) (<[id := sw_now s]> (sw_home s)) (<[id := ASock id true]> (sw_socks s)) (sw_written s)).
      set (n1 := NSpace (ns_reg (N (sw_now s))) (<[id := ASock id true]> (ns_sockets (N (sw_now s)))) (ns_events (N (sw_now s))) (ns_written (N (sw_now s)))).
      assert (R s1 (put (sw_now s) n1 N)) as HR1.
      { split.
        - constructor; cbn; try done.
          + intros j e [[<- <-]|[_ Hj]]%lookup_insert_Some; [unfold sw_now; lia|by eapply G2].
          + intros j a [[<- <-]|[Hj Ha]]%lookup_insert_Some; [rewrite lookup_insert; by eauto|]. rewrite lookup_insert_ne by done. by apply G3.
          + intros w Hw. rewrite lookup_insert_is_Some'. right. by apply G4.
        - intros e. destruct (H e) as [H1 H2 H3 H4 H5].
          assert (filter (λ w, <[id:=sw_now s]> (sw_home s) !! w.1 = Some e) (sw_written s) = ns_written (N e)) as Hw.
          { rewrite <- H5. apply filter_ext_in. intros w Hw%G4. rewrite lookup_insert_ne; [done|]. intros E. rewrite <- E, Hid in Hw. by destruct Hw. }
          assert (∀ j, j ≠ id → <[id:=sw_now s]> (sw_home s) !! j = sw_home s !! j) as Hne by (intros; by rewrite lookup_insert_ne).
          destruct (decide (e = sw_now s)) as [->|Hn].
          + rewrite put_eq. constructor; cbn; try done.
            * intros j. destruct (decide (j = id)) as [->|Hj]; [by rewrite !lookup_insert, decide_True|]. rewrite !lookup_insert_ne by done. apply H2.
            * intros j Hj%H3. rewrite Hne; [done|]. intros ->. congruence.
          + rewrite put_ne by done. constructor; cbn; try done.
            * intros j. destruct (decide (j = id)) as [->|Hj]; [|rewrite !lookup_insert_ne by done; apply H2]. rewrite lookup_insert, decide_False by congruence. rewrite H2, Hid. by rewrite decide_False.
            * intros j Hj%H3. rewrite Hne; [done|]. intros ->. congruence. }
      destruct (sim_join (sw_now s) [id] N s1 n1 (ASock id true) HR1) as [HR2 Hs2]; [cbn; by rewrite lookup_insert..|].
      set (mines1 := λ e, if decide (sw_now s = e) then {[id]} ∪ mines e else mines e).
      eapply R_ext; [|eapply (IH _ _ mines1 HR2)]; try done.
      + intros e. cbn beta. rewrite (now_same _ _ Hs2). assert (sw_now s1 = sw_now s) as -> by done. unfold put, mines1. destruct (decide (e = sw_now s)) as [->|Hn].
        * rewrite !decide_True by done. cbn [foldl ns_step]. rewrite (r_socks _ _ _ (H (sw_now s))), Hns. by case_decide.
        * by rewrite !decide_False by done.
      + intros e j. rewrite (proj1 Hs2). unfold mines1, s1. cbn [sw_home]. destruct (decide (j = id)) as [->|Hj].
        * rewrite lookup_insert. case_decide as Hd; [rewrite <- Hd; set_solver|]. rewrite Hm, Hid. split; [done|]. intros [= ?]. done.
        * rewrite lookup_insert_ne by done. rewrite <- Hm. case_decide; set_solver.
      + intros j Hj. rewrite (proj1 Hs2). cbn [sw_home s1]. rewrite lookup_insert_ne by (intros ->; done). apply Hfr. cbn. by right.
    - edestruct (sim_sock id (w_join rs) (sock_join rs) (NJoin id rs) s N mines) as [H1 H2]; [apply (λ e, sim_join e rs)|done..|]. exact (Hgo _ _ eq_refl H1 H2 eq_refl (λ e, eq_refl)).
    - edestruct (sim_sock id (w_leave rep r) (sock_leave rep r) (NLeave id r) s N mines) as [H1 H2]; [apply (λ e, sim_leave e r)|done..|]. exact (Hgo _ _ eq_refl H1 H2 eq_refl (λ e, eq_refl)).
    - edestruct (sim_sock id (w_close rep (λ _, o)) (sock_close rep (λ _, o)) (NClose id o) s N mines) as [H1 H2]; [intros e; by apply sim_close|done..|]. exact (Hgo _ _ eq_refl H1 H2 eq_refl (λ e, eq_refl)).
    - edestruct (sim_on v (w_write p) (sock_write p) o opts (NBroadcast p o opts) s N mines) as [H1 H2]; [apply (λ e, sim_write e p)|done..|]. exact (Hgo _ _ eq_refl H1 H2 eq_refl (λ e, eq_refl)).
    - edestruct (sim_on v (w_join rs) (sock_join rs) o opts (NAddSockets o opts rs) s N mines) as [H1 H2]; [apply (λ e, sim_join e rs)|done..|]. exact (Hgo _ _ eq_refl H1 H2 eq_refl (λ e, eq_refl)).
    - edestruct (sim_on v (w_leave_list rep rs) (sock_leave_list rep rs) o opts (NDelSockets o opts rs) s N mines) as [H1 H2]; [apply (λ e, sim_leave_list e rs)|done..|]. exact (Hgo _ _ eq_refl H1 H2 eq_refl (λ e, eq_refl)).
    - edestruct (sim_on v (w_close rep (o_leave o)) (sock_close rep (o_leave o)) o opts (NDisconnectSockets o opts) s N mines) as [H1 H2]; [intros e; apply sim_close, Ho|done..|]. exact (Hgo _ _ eq_refl H1 H2 eq_refl (λ e, eq_refl)).
  Qed.
End swap.

Section histories.
  Context {P : Type} (rep : bool).
  Notation st := (swap P).
  Lemma init_R : R (Swap [empty_registry] ∅ ∅ [] : st) (λ _, NSpace empty_registry ∅ [] []).
  Proof.
    split.
    - constructor; cbn; [lia| | |]; try (intros *; rewrite lookup_empty; done). intros w Hw. by apply elem_of_nil in Hw.
    - intros e. constructor.
      + unfold sw_reg. cbn. by destruct e as [|e]; cbn.
      + intros id. cbn [ns_sockets sw_home sw_socks]. rewrite !lookup_empty. by case_decide.
      + intros id [? H]. cbn in H. by rewrite lookup_empty in H.
      + apply empty_inv.
      + done.
  Qed.
  Lemma run_R (h : list (wop P)) : Forall wop_ok h → NoDup (opened h) → R (w_run rep h) (λ e, ns_run rep (part e h)).
  Proof.
    intros Hok Hnd. apply (part_run rep h _ _ (λ _, ∅) init_R); try done.
  Qed.
  Lemma w_run_snoc (h : list (wop P)) op : w_run rep (h ++ [op]) = w_step rep (w_run rep h) op.
  Proof. unfold w_run. by rewrite foldl_app. Qed.
  Lemma opened_app (h1 h2 : list (wop P)) : opened (h1 ++ h2) = opened h1 ++ opened h2.
  Proof. apply omap_app. Qed.
  Lemma changes_app (h1 h2 : list (wop P)) : changes (h1 ++ h2) = changes h1 + changes h2.
  Proof. unfold changes. by rewrite omap_app, app_length. Qed.
  (** The operations other than WSet and WOpen change neither the adapters' number nor the homes. *)
  Lemma step_same (s : st) op N : R s N → wop_ok op → (∀ id, op ≠ WOpen id) → op ≠ WSet → same (w_step rep s op) s.
  Proof.
    intros HR Ho H1 H2. set (mines := λ e : nat, filter (λ id, sw_home s !! id = Some e) (dom (sw_home s))).
    assert (mines_ok s mines) as Hm. { intros e id. unfold mines. rewrite elem_of_filter, elem_of_dom. split; [by intros [? _]|]. intros E. rewrite E. by eauto. }
    destruct op as [|id|id rs|id r|id o|v p o opts|v o opts rs|v o opts rs|v o opts]; [done|by destruct (H1 id)|..]; cbn [w_step].
    - apply (sim_sock rep id (w_join rs) (sock_join rs) (NJoin id rs) s N mines); try done. intros e. apply sim_join.
    - apply (sim_sock rep id (w_leave rep r) (sock_leave rep r) (NLeave id r) s N mines); try done. intros e. apply sim_leave.
    - apply (sim_sock rep id (w_close rep (λ _, o)) (sock_close rep (λ _, o)) (NClose id o) s N mines); try done. intros e. by apply sim_close.
    - apply (sim_on rep v (w_write p) (sock_write p) o opts (NBroadcast p o opts) s N mines); try done. intros e. apply sim_write.
    - apply (sim_on rep v (w_join rs) (sock_join rs) o opts (NAddSockets o opts rs) s N mines); try done. intros e. apply sim_join.
    - apply (sim_on rep v (w_leave_list rep rs) (sock_leave_list rep rs) o opts (NDelSockets o opts rs) s N mines); try done. intros e. apply sim_leave_list.
    - apply (sim_on rep v (w_close rep (o_leave o)) (sock_close rep (o_leave o)) o opts (NDisconnectSockets o opts) s N mines); try done. intros e. apply sim_close, Ho.
  Qed.
  Lemma home_run (h : list (wop P)) : Forall wop_ok h → NoDup (opened h) → sw_now (w_run rep h) = changes h ∧
    ∀ id e, sw_home (w_run rep h) !! id = Some e ↔ ∃ h1 h2, h = h1 ++ WOpen id :: h2 ∧ changes h1 = e.
  Proof.
    induction h as [|op h IH] using rev_ind; intros Hok Hnd.
    - split; [done|]. intros id e. cbn. rewrite lookup_empty. split; [done|]. intros (h1 & h2 & E & _). by destruct h1.
    - apply Forall_app in Hok as [Hok Ho]. pose proof (proj1 (Forall_singleton _ _) Ho) as Ho1. clear Ho. rename Ho1 into Ho. rewrite opened_app in Hnd. pose proof Hnd as Hnd0. apply NoDup_app in Hnd as (Hnd & Hdis & _).
      destruct (IH Hok Hnd) as [I1 I2]. rewrite w_run_snoc, changes_app. pose proof (run_R h Hok Hnd) as HR. set (s := w_run rep h) in *.
      assert (∀ id e, (∃ h1 h2, h ++ [op] = h1 ++ WOpen id :: h2 ∧ changes h1 = e) ↔ (op = WOpen id ∧ changes h = e) ∨ (∃ h1 h2, h = h1 ++ WOpen id :: h2 ∧ changes h1 = e)) as Hsn.
      { intros id e. split.
        - intros (h1 & h2 & E & Hc). destruct h2 as [|x h2 _] using rev_ind.
          + apply app_inj_tail in E as [-> ->]. by left.
          + right. rewrite app_comm_cons, app_assoc in E. apply app_inj_tail in E as [-> ->]. by exists h1, h2.
        - intros [[-> Hc]|(h1 & h2 & -> & Hc)]; [by exists h, []|]. exists h1, (h2 ++ [op]). by rewrite <- app_assoc. }
      assert ((∀ id, op ≠ WOpen id) → op ≠ WSet → changes [op] = 0 → sw_now (w_step rep s op) = changes h + changes [op] ∧
        ∀ id e, sw_home (w_step rep s op) !! id = Some e ↔ ∃ h1 h2, h ++ [op] = h1 ++ WOpen id :: h2 ∧ changes h1 = e) as Hother.
      { intros H1 H2 H3. pose proof (step_same s op _ HR Ho H1 H2) as Hs. rewrite H3, Nat.add_0_r, (now_same _ _ Hs). split; [done|]. intros id e. rewrite Hsn, (proj1 Hs), I2.
        split; [by right|]. intros [[-> _]|?]; [by destruct (H1 id)|done]. }
      destruct op as [|id|? ?|? ?|? ?|? ? ? ?|? ? ? ?|? ? ? ?|? ? ?]; [clear Hother|clear Hother|by apply Hother..].
      + cbn [w_step]. split.
        * unfold sw_now in *. cbn [sw_regs]. rewrite app_length. cbn. pose proof (g_now _ (proj1 HR)). lia.
        * intros id e. rewrite Hsn. cbn [sw_home]. rewrite I2. split; [by right|]. by intros [[? _]|?].
      + cbn [w_step]. assert (∀ f (x : st), sw_home (at_home (ASock id true) f x) = sw_home x ∧ length (sw_regs (at_home (ASock id true) f x)) = length (sw_regs x)) as Hat.
        { intros f x. unfold at_home. destruct (sw_home x !! _); [|done]. cbn. by rewrite alter_length. }
        unfold w_join. cbn [as_can_join]. split.
        * unfold sw_now in *. rewrite (proj2 (Hat _ _)). cbn. lia.
        * intros j e. rewrite Hsn, (proj1 (Hat _ _)). cbn [sw_home]. rewrite <- I2. destruct (decide (j = id)) as [->|Hj].
          -- rewrite lookup_insert. assert (sw_home s !! id = None) as Hn.
             { destruct (sw_home s !! id) as [e'|] eqn:E; [|done]. apply I2 in E as (h1 & h2 & E & _). exfalso. apply (Hdis id); [|cbn; by left]. rewrite E, opened_app. apply elem_of_app. right. cbn. by left. }
             rewrite Hn, I1. split; [intros [= <-]; by left|]. by intros [[_ <-]|?].
          -- rewrite lookup_insert_ne by done. split; [by right|]. intros [[[= E] _]|?]; [by destruct Hj|done].
  Qed.

  Lemma c68_split_l (h : list (wop P)) e : Forall wop_ok h → NoDup (opened h) →
    sw_reg e (w_run rep h) = ns_reg (ns_run rep (part e h)) ∧
    ∀ id h1 h2, h = h1 ++ WOpen id :: h2 → changes h1 = e →
      sw_socks (w_run rep h) !! id = ns_sockets (ns_run rep (part e h)) !! id ∧ sent_to id (w_run rep h) = packets_of id (ns_run rep (part e h)).
  Proof.
    intros Hok Hnd. destruct (run_R h Hok Hnd) as [G H]. specialize (H e). cbn beta in H. destruct H as [H1 H2 H3 H4 H5]. split; [done|]. intros id h1 h2 E Hc.
    assert (sw_home (w_run rep h) !! id = Some e) as Hh by (apply home_run; [done|done|]; by exists h1, h2). split; [by rewrite H2, decide_True|].
    unfold sent_to, packets_of. rewrite <- H5, list_filter_filter. f_equal. apply filter_ext_in. intros w _. split; [|by intros [? _]]. intros <-. done.
  Qed.
  Lemma part_ok e cur mine (h : list (wop P)) : Forall wop_ok h → Forall nsop_ok (part_from e cur mine h).
  Proof.
    intros H. revert cur mine. induction H as [|op h Ho _ IH]; intros cur mine; [constructor|].
    destruct op; cbn [part_from]; try (destruct (decide _)); try (destruct (goes _ _ _ _)); cbn [app]; try (apply Forall_cons_2; [exact Ho|]); apply IH.
  Qed.
  Lemma c68_received_l (h h1 h2 : list (wop P)) id : Forall wop_ok h → NoDup (opened h) → h = h1 ++ WOpen id :: h2 →
    (is_Some (sw_socks (w_run rep h) !! id) ↔ v_listed (view_of (part (changes h1) h)) id) ∧
    (∀ r, id ∈ members_of (sw_reg (changes h1) (w_run rep h)) r ↔ v_in (view_of (part (changes h1) h)) id r) ∧
    ∀ l, received (part (changes h1) h) id l ↔ sent_to id (w_run rep h) = l.
  Proof.
    intros Hok Hnd E. destruct (c68_split_l h (changes h1) Hok Hnd) as [H1 H2]. destruct (H2 id h1 h2 E eq_refl) as [H3 H4].
    destruct (ns_histories rep (part (changes h1) h) (part_ok _ _ _ _ Hok)) as (V1 & V2 & V3). rewrite H1, H3, H4. split; [apply V1|]. split; [apply (V2 id)|]. intros l. apply V3.
  Qed.
  Lemma c68_missed_l (h h1 h2 : list (wop P)) id p o opts : Forall wop_ok h → NoDup (opened h) → orders_ok o → h = h1 ++ WOpen id :: h2 → 0 < changes h2 →
    sent_to id (w_run rep (h ++ [WBroadcast VNow p o opts])) = sent_to id (w_run rep h) ∧
    sw_socks (w_run rep (h ++ [WBroadcast VNow p o opts])) !! id = sw_socks (w_run rep h) !! id.
  Proof.
    intros Hok Hnd Ho E Hc. set (h' := h ++ [WBroadcast VNow p o opts]).
    assert (Forall wop_ok h') as Hok' by (apply Forall_app; split; [done|]; by constructor). assert (NoDup (opened h')) as Hnd' by (unfold h'; rewrite opened_app, app_nil_r; done).
    destruct (c68_split_l h (changes h1) Hok Hnd) as [_ H1]. destruct (H1 id h1 h2 E eq_refl) as [H2 H3].
    destruct (c68_split_l h' (changes h1) Hok' Hnd') as [_ H1']. destruct (H1' id h1 (h2 ++ [WBroadcast VNow p o opts])) as [H2' H3']; [unfold h'; rewrite E; by rewrite <- app_assoc|done|].
    rewrite H2, H3, H2', H3'. assert (part (changes h1) h' = part (changes h1) h) as ->; [|done]. unfold part, h'. 
    assert (∀ (l : list (wop P)) e cur mine, e ≠ cur + changes l → part_from e cur mine (l ++ [WBroadcast VNow p o opts]) = part_from e cur mine l) as Hl.
    { induction l as [|op l IH]; intros e cur mine Hne.
      - cbn in Hne. cbn. rewrite bool_decide_false; [done|]. rewrite Nat.add_0_r in Hne. congruence.
      - rewrite (changes_app [op] l : changes (op :: l) = _) in Hne.
        destruct op; (change (e ≠ cur + (1 + changes l)) in Hne || change (e ≠ cur + changes l) in Hne);
          cbn [app part_from]; try case_decide; rewrite ?IH; try done; lia. }
    apply Hl. rewrite E, changes_app. change (changes (WOpen id :: h2)) with (changes h2). lia.
  Qed.
End histories.
Lemma c68_everybody_l : ∃ (h : list (wop string)) (id : sid) (p : string) (o : orders), Forall wop_ok h ∧ NoDup (opened h) ∧ orders_ok o ∧
  sw_socks (w_run false h) !! id = Some (ASock id true) ∧
  sent_to id (w_run false (h ++ [WBroadcast VNow p o None])) = [].
Proof.
  exists [WOpen "a"; WSet], "a", "p", orders_std. split; [by repeat constructor|]. split; [repeat constructor; set_solver|]. split; [split_and!; intros; apply ord_std_ok|]. split; vm_compute; reflexivity.
Qed.
