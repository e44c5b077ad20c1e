(** Proofs for C72: every history of the server is a run of the interleaving model in which the calls are made in turn. *)
From Verif Require Import Base GoTypes Rooms RoomsSpec RoomsProofs Adapter Session System SystemSpec SystemProofs NspConc NspConcSpec NspTurnSpec.

Section blocks.
  Context (cl : bool).
  (** ** Steps of goroutine [i] *)
  Definition with_pc (t : nthread) (pc : npc) : nthread := NThread (nt_name t) (nt_client t) (nt_fn t) (nt_rx t) pc.
  Definition at_pc (T : gmap string nat) (O : list nobj) (C : gmap nat (gset nat)) (E : list nat) (l : list nthread) (i : nat) (t : nthread) : nstate :=
    NState T O C E (<[i := t]> l).
  Lemma nset_at T O C E l i t t' pc : nset (at_pc T O C E l i t) i t' pc = at_pc T O C E l i (with_pc t' pc).
  Proof. unfold nset, at_pc. cbn. by rewrite list_insert_insert. Qed.
  Lemma nobjs_at f T O C E l i t : nobjs f (at_pc T O C E l i t) = at_pc T (f O) C E l i t.
  Proof. done. Qed.
  Lemma ntable_at f T O C E l i t : ntable f (at_pc T O C E l i t) = at_pc (f T) O C E l i t.
  Proof. done. Qed.
  Lemma nchildren_at p f T O C E l i t : nchildren p f (at_pc T O C E l i t) = at_pc T O (<[p := f (default ∅ (C !! p))]> C) E l i t.
  Proof. done. Qed.
  Lemma nemit_at o T O C E l i t : nemit o (at_pc T O C E l i t) = at_pc T O C (E ++ [o]) l i t.
  Proof. done. Qed.
  Lemma lookup_at T O C E l i t : i < length l → n_threads (at_pc T O C E l i t) !! i = Some t.
  Proof. intros. cbn. by apply list_lookup_insert. Qed.
  Lemma nrun_S s m i : nrun cl s (replicate (S m) i) = nrun cl (nstep cl s i) (replicate m i).
  Proof. done. Qed.

  (** A call of Of. *)
  Lemma run_of_found T O C E l i m fn rx o : i < length l → T !! m = Some o →
    nrun cl (at_pc T O C E l i (NThread m None fn rx PStart)) (replicate 1 i) = at_pc T O C E l i (NThread m None fn rx (PGot o)).
  Proof.
    intros Hi HT. rewrite nrun_S. unfold nstep. rewrite lookup_at by done. cbn. rewrite HT. apply nset_at.
  Qed.
  Lemma run_of_new T O C E l i m fn : i < length l → T !! m = None →
    nrun cl (at_pc T O C E l i (NThread m None fn None PStart)) (replicate 4 i) =
    at_pc (<[m := length O]> T) (O ++ [NObj m None ∅ false]) C (if decide (m = "/") then E else E ++ [length O]) l i (NThread m None fn None (PGot (length O))).
  Proof.
    intros Hi HT. rewrite nrun_S. unfold nstep at 1. rewrite lookup_at by done. cbn [nt_pc nt_client nt_name]. change (n_table (at_pc T O C E l i (NThread m None fn None PStart))) with T. rewrite HT, nset_at.
    rewrite nrun_S. unfold nstep at 1. rewrite lookup_at by done. cbn [nt_pc with_pc nt_rx nt_name]. rewrite ?nobjs_at, ?ntable_at, ?nchildren_at, ?nemit_at, nset_at. 
    rewrite nrun_S. unfold nstep at 1. rewrite lookup_at by done. cbn [nt_pc with_pc nt_rx nt_name]. rewrite ?nobjs_at, ?ntable_at, ?nchildren_at, ?nemit_at, nset_at.
    rewrite nrun_S. unfold nstep at 1. rewrite lookup_at by done. cbn [nt_pc with_pc nt_rx nt_name].
    match goal with |- context [n_objs ?x !! ?y] => change (n_objs x !! y) with ((O ++ [NObj m None ∅ false]) !! length O) end.
    rewrite lookup_app_r, Nat.sub_diag by done. cbn [lookup list_lookup mbind option_bind no_parent]. rewrite (bool_decide_true (None = None)), andb_true_r by done.
    case_decide as Hm; [rewrite bool_decide_true by done|rewrite bool_decide_false by done].
    - rewrite nset_at. done.
    - rewrite ?nobjs_at, ?ntable_at, ?nchildren_at, ?nemit_at, nset_at. done.
  Qed.
  Definition child_state T O (C : gmap nat (gset nat)) E l i m (p : nat) (t : nthread) : nstate :=
    at_pc (<[m := length O]> T) (O ++ [NObj m (Some p) ∅ false]) (<[p := {[length O]} ∪ default ∅ (C !! p)]> C) (E ++ [length O]) l i t.
  (** CreateChild. *)
  Lemma run_child T O C E l i m p (t : nthread) k : i < length l → nt_name t = m → nt_pc t = PAlloc (Some p) k →
    nrun cl (at_pc T O C E l i t) (replicate 4 i) = child_state T O C E l i m p (with_pc t (if k then PGot (length O) else POf)).
  Proof.
    intros Hi Hm Ht.
    rewrite nrun_S. unfold nstep at 1. rewrite lookup_at by done. rewrite Ht. cbn [nt_pc nt_client nt_name with_pc].
    rewrite Hm, ?nobjs_at, ?ntable_at, ?nchildren_at, ?nemit_at, nset_at.
    rewrite nrun_S. unfold nstep at 1. rewrite lookup_at by done. cbn [nt_pc with_pc nt_rx nt_name]. rewrite ?nobjs_at, ?ntable_at, ?nchildren_at, ?nemit_at, nset_at.
    rewrite nrun_S. unfold nstep at 1. rewrite lookup_at by done. cbn [nt_pc with_pc nt_rx nt_name]. rewrite Hm, ?nobjs_at, ?ntable_at, ?nchildren_at, ?nemit_at, nset_at.
    rewrite nrun_S. unfold nstep at 1. rewrite lookup_at by done. cbn [nt_pc with_pc nt_rx nt_name]. rewrite Hm.
    match goal with |- context [n_objs ?x !! ?y] => change (n_objs x !! y) with ((O ++ [NObj m (Some p) ∅ false]) !! length O) end.
    rewrite lookup_app_r, Nat.sub_diag by done. cbn [lookup list_lookup mbind option_bind no_parent]. rewrite (bool_decide_false (Some p = None)), andb_false_r by done.
    rewrite ?nobjs_at, ?ntable_at, ?nchildren_at, ?nemit_at, nset_at. done.
  Qed.
  Lemma run_of_child T O C E l i m fn p : i < length l → T !! m = None →
    nrun cl (at_pc T O C E l i (NThread m None fn (Some p) PStart)) (replicate 5 i) = child_state T O C E l i m p (NThread m None fn (Some p) (PGot (length O))).
  Proof.
    intros Hi HT. rewrite nrun_S. unfold nstep at 1. rewrite lookup_at by done. cbn [nt_pc nt_client nt_name].
    change (n_table (at_pc T O C E l i (NThread m None fn (Some p) PStart))) with T. rewrite HT, nset_at.
    rewrite run_child with (p := p) (m := m) (k := true) by done. done.
  Qed.
  (** A client that connects. *)
  Lemma run_enter T O C E l i m c fn rx o : i < length l → T !! m = Some o →
    nrun cl (at_pc T O C E l i (NThread m (Some c) fn rx PStart)) (replicate 2 i) = at_pc T O C E l i (NThread m (Some c) fn rx (PGot o)).
  Proof.
    intros Hi HT. rewrite nrun_S. unfold nstep at 1. rewrite lookup_at by done. cbn [nt_pc nt_client nt_name].
    change (n_table (at_pc T O C E l i (NThread m (Some c) fn rx PStart))) with T. rewrite HT, nset_at.
    rewrite nrun_S. unfold nstep at 1. rewrite lookup_at by done. cbn [nt_pc nt_client nt_name with_pc].
    match goal with |- context [n_table ?x !! m] => change (n_table x) with T end. rewrite HT, nset_at. done.
  Qed.
  Lemma run_enter_child T O C E l i m c p rx : i < length l → T !! m = None →
    nrun cl (at_pc T O C E l i (NThread m (Some c) (Some p) rx PStart)) (replicate 8 i) = child_state T O C E l i m p (NThread m (Some c) (Some p) rx (PGot (length O))).
  Proof.
    intros Hi HT. rewrite nrun_S. unfold nstep at 1. rewrite lookup_at by done. cbn [nt_pc nt_client nt_name].
    change (n_table (at_pc T O C E l i (NThread m (Some c) (Some p) rx PStart))) with T. rewrite HT, nset_at.
    rewrite nrun_S. unfold nstep at 1. rewrite lookup_at by done. cbn [nt_pc nt_client nt_name with_pc nt_fn]. rewrite nset_at.
    rewrite nrun_S. unfold nstep at 1. rewrite lookup_at by done. cbn [nt_pc nt_client nt_name with_pc nt_fn].
    match goal with |- context [n_table ?x !! m] => change (n_table x) with T end. rewrite HT, nset_at.
    change (replicate 5 i) with (replicate 4 i ++ [i]). unfold nrun. rewrite foldl_app. 
    pose proof (run_child T O C E l i m p (with_pc (with_pc (with_pc (NThread m (Some c) (Some p) rx PStart) PCheck) (PReload p)) (PAlloc (Some p) false)) false Hi eq_refl eq_refl) as H.
    unfold nrun in H. rewrite H. cbn [foldl]. unfold nstep at 1, child_state. rewrite lookup_at by done. cbn [nt_pc nt_client nt_name with_pc nt_fn].
    match goal with |- context [n_table ?x !! m] => change (n_table x) with (<[m := length O]> T) end. rewrite lookup_insert, nset_at. done.
  Qed.
  (** A client admitted. *)
  Lemma run_admit T O C E l i t o id : i < length l → nt_client t = Some (id, true) → nt_pc t = PGot o →
    nrun cl (at_pc T O C E l i t) (replicate 1 i) = at_pc T (alter (nsocks (λ x, {[id]} ∪ x)) o O) C E l i (with_pc t (PIn o)).
  Proof.
    intros Hi Hc Hp. rewrite nrun_S. unfold nstep. rewrite lookup_at by done. rewrite Hp, Hc. cbn. rewrite ?nobjs_at, ?ntable_at, ?nchildren_at, ?nemit_at, nset_at. done.
  Qed.
  (** A client that leaves, or is refused. *)
  Definition reaped (o : nat) (id : string) (x : nobj) : option nat :=
    if cl && bool_decide (no_socks x ∖ {[id]} = ∅) then no_parent x else None.
  Lemma run_leave T O C E l i t o id b x : i < length l → nt_client t = Some (id, b) → nt_pc t = PIn o ∨ b = false ∧ nt_pc t = PGot o → O !! o = Some x →
    ∃ m O', nrun cl (at_pc T O C E l i t) (replicate m i) =
      match reaped o id x with
      | Some p => at_pc (delete (nt_name t) T) O' (<[p := default ∅ (C !! p) ∖ {[o]}]> C) E l i (with_pc t PEnd)
      | None => at_pc T O' C E l i (with_pc t PEnd)
      end ∧ obj_view <$> O' = obj_view <$> alter (nsocks (λ x, x ∖ {[id]})) o O.
  Proof.
    intros Hi Hc Hp Ho.
    assert (nrun cl (at_pc T O C E l i t) (replicate 2 i) = at_pc T (alter (nsocks (λ x, x ∖ {[id]})) o O) C E l i (with_pc t (PLen o))) as H2.
    { assert (nstep cl (at_pc T O C E l i t) i = at_pc T O C E l i (with_pc t (PRemove o))) as H1.
      { unfold nstep. rewrite lookup_at by done. destruct Hp as [-> |[-> ->]]; [|rewrite Hc]; apply nset_at. }
      rewrite nrun_S, H1. rewrite nrun_S. unfold nstep at 1. rewrite lookup_at by done. cbn [nt_pc nt_client nt_name with_pc]. rewrite Hc.
      rewrite ?nobjs_at, ?ntable_at, ?nchildren_at, ?nemit_at, nset_at. done. }
    set (O1 := alter (nsocks (λ x, x ∖ {[id]})) o O) in *.
    assert (O1 !! o = Some (nsocks (λ x, x ∖ {[id]}) x)) as HO1 by (unfold O1; by rewrite list_lookup_alter, Ho).
    assert (∀ m s', nrun cl (at_pc T O1 C E l i (with_pc t (PLen o))) (replicate m i) = s' → nrun cl (at_pc T O C E l i t) (replicate (2 + m) i) = s') as Hgo.
    { intros m s' <-. rewrite replicate_add. unfold nrun in *. rewrite foldl_app, H2. done. }
    unfold reaped. destruct (cl && bool_decide (no_socks x ∖ {[id]} = ∅)) eqn:Ecl; [destruct (no_parent x) as [p|] eqn:Ep|].
    - exists (2 + 4), (alter nclose o O1). split; [|].
      + apply Hgo.
        rewrite nrun_S. unfold nstep at 1. rewrite lookup_at by done. cbn [nt_pc nt_client nt_name with_pc].
        match goal with |- context [n_objs ?x !! o] => change (n_objs x) with O1 end. rewrite HO1. cbn [no_parent nsocks no_socks]. rewrite Ep, (bool_decide_true (is_Some (Some p))), andb_true_r, Ecl by eauto.
        rewrite nset_at. rewrite nrun_S. unfold nstep at 1. rewrite lookup_at by done. cbn [nt_pc nt_client nt_name with_pc]. rewrite ?nobjs_at, ?ntable_at, ?nchildren_at, ?nemit_at, nset_at.
        rewrite nrun_S. unfold nstep at 1. rewrite lookup_at by done. cbn [nt_pc nt_client nt_name with_pc]. rewrite ?nobjs_at, ?ntable_at, ?nchildren_at, ?nemit_at, nset_at.
        rewrite nrun_S. unfold nstep at 1. rewrite lookup_at by done. cbn [nt_pc nt_client nt_name with_pc].
        match goal with |- context [n_objs ?x !! o] => change (n_objs x) with (alter nclose o O1) end. rewrite list_lookup_alter, HO1. cbn [fmap option_fmap option_map mbind option_bind nclose nsocks no_parent]. rewrite Ep.
        rewrite ?nobjs_at, ?ntable_at, ?nchildren_at, ?nemit_at, nset_at. done.
      + apply list_eq. intros j. rewrite !list_lookup_fmap, alter_lookup. destruct (decide (j = o)); [|done]. by destruct (O1 !! j).
    - exists (2 + 1), O1. split; [|done]. apply Hgo. rewrite nrun_S. unfold nstep at 1. rewrite lookup_at by done. cbn [nt_pc nt_client nt_name with_pc].
      match goal with |- context [n_objs ?x !! o] => change (n_objs x) with O1 end. rewrite HO1. cbn [no_parent nsocks no_socks]. rewrite Ep.
      rewrite (bool_decide_false (is_Some None)), andb_false_r by (by intros []). cbn [andb]. rewrite nset_at. done.
    - exists (2 + 1), O1. split; [|done]. apply Hgo. rewrite nrun_S. unfold nstep at 1. rewrite lookup_at by done. cbn [nt_pc nt_client nt_name with_pc].
      match goal with |- context [n_objs ?x !! o] => change (n_objs x) with O1 end. rewrite HO1. cbn [no_parent nsocks no_socks].
      replace (cl && bool_decide (is_Some (no_parent x)) && bool_decide (no_socks x ∖ {[id]} = ∅)) with false; [rewrite nset_at; done|].
      destruct cl; [|done]. cbn in *. by rewrite Ecl, andb_false_r.
  Qed.
End blocks.

Section sim.
  Context (cl : bool).
  (** ** One more goroutine *)
  Definition addt (t : nthread) (n : nstate) : nstate := NState (n_table n) (n_objs n) (n_children n) (n_events n) (n_threads n ++ [t]).
  Lemma nset_addt t n i u pc : i < length (n_threads n) → nset (addt t n) i u pc = addt t (nset n i u pc).
  Proof. intros. unfold nset, addt. cbn. by rewrite insert_app_l. Qed.
  Lemma nstep_addt t n i : i < length (n_threads n) → nstep cl (addt t n) i = addt t (nstep cl n i).
  Proof.
    intros Hi. unfold nstep. cbn [n_threads addt n_table n_objs n_children n_events]. rewrite lookup_app_l by done. destruct (n_threads n !! i) as [u|]; [|done].
    destruct (nt_pc u); repeat case_match; try done; try (by apply nset_addt);
      match goal with |- nset ?x _ _ _ = addt _ (nset ?y _ _ _) => change x with (addt t y); by apply nset_addt end.
  Qed.
  Lemma nstep_threads n i : length (n_threads (nstep cl n i)) = length (n_threads n).
  Proof. unfold nstep. destruct (n_threads n !! i) as [u|]; [|done]. destruct (nt_pc u); repeat case_match; cbn; by rewrite ?insert_length. Qed.
  Lemma nrun_addt t n i m : i < length (n_threads n) → nrun cl (addt t n) (replicate m i) = addt t (nrun cl n (replicate m i)).
  Proof.
    revert n. induction m as [|m IH]; intros n Hi; [done|]. cbn. rewrite nstep_addt by done. apply IH. by rewrite nstep_threads.
  Qed.
  Lemma nrun_out n i m : length (n_threads n) ≤ i → nrun cl n (replicate m i) = n.
  Proof. intros Hi. induction m as [|m IH]; [done|]. cbn. unfold nstep at 2. rewrite lookup_ge_None_2 by done. done. Qed.
  Lemma rest_addt t n : resting (nt_pc t) = true → at_rest n → at_rest (addt t n).
  Proof. intros Ht Hn. apply Forall_app. split; [done|]. by constructor. Qed.
  Lemma turn_addt t n n' : resting (nt_pc t) = true → turn cl n n' → turn cl (addt t n) (addt t n').
  Proof.
    intros Ht (H1 & H2 & i & m & E). split; [by apply rest_addt|]. split; [by apply rest_addt|].
    destruct (decide (i < length (n_threads n))) as [Hi|Hi].
    - exists i, m. by rewrite nrun_addt, E.
    - rewrite nrun_out in E by lia. exists 0, 0. by rewrite E.
  Qed.
  Lemma turns_addt t n n' : resting (nt_pc t) = true → rtc (turn cl) n n' → rtc (turn cl) (addt t n) (addt t n').
  Proof. intros Ht. induction 1; [done|]. eapply rtc_l; [by apply turn_addt|done]. Qed.

  (** ** Reachable by turns *)
  Definition by_turns (n : nstate) : Prop := ∃ ts, unbegun ts ∧ rtc (turn cl) (ninit ts) n ∧ at_rest n.
  Lemma by_turns_go n i t m T O C E t' : by_turns n → n_threads n !! i = Some t → resting (nt_pc t') = true →
    nrun cl (at_pc (n_table n) (n_objs n) (n_children n) (n_events n) (n_threads n) i t) (replicate m i) = at_pc T O C E (n_threads n) i t' →
    by_turns (at_pc T O C E (n_threads n) i t').
  Proof.
    intros (ts & Hu & Hr & Hn) Ht Hrest E'. exists ts. split; [done|].
    assert (at_rest (at_pc T O C E (n_threads n) i t')) as Hn'.
    { unfold at_rest, at_pc. cbn. by apply Forall_insert. }
    split; [|done]. eapply rtc_r; [exact Hr|]. split; [done|]. split; [done|]. exists i, m. rewrite <- E'. f_equal. unfold at_pc. rewrite list_insert_id by done. by destruct n.
  Qed.
  Lemma by_turns_new n t m T O C E t' : by_turns n → nt_pc t = PStart → resting (nt_pc t') = true →
    let i := length (n_threads n) in let l := n_threads n ++ [t] in
    nrun cl (at_pc (n_table n) (n_objs n) (n_children n) (n_events n) l i t) (replicate m i) = at_pc T O C E l i t' →
    by_turns (NState T O C E (n_threads n ++ [t'])).
  Proof.
    intros (ts & Hu & Hr & Hn) Hp Hrest i l E'.
    assert (by_turns (addt t n)) as Hb.
    { exists (ts ++ [t]). split; [apply Forall_app; split; [done|by constructor]|]. change (ninit (ts ++ [t])) with (addt t (ninit ts)).
      split; [apply turns_addt; [by rewrite Hp|done]|]. apply rest_addt; [by rewrite Hp|done]. }
    pose proof (by_turns_go (addt t n) i t m T O C E t' Hb) as H.
    replace (NState T O C E (n_threads n ++ [t'])) with (at_pc T O C E (n_threads (addt t n)) i t').
    - apply H; [cbn; unfold i; by rewrite lookup_app_r, Nat.sub_diag|done|exact E'].
    - unfold at_pc. cbn. unfold i. by rewrite <- (Nat.add_0_r (length (n_threads n))), insert_app_r.
  Qed.

  (** ** Agreement *)
  Lemma name_view x n : name_of x n = match (nsp_view <$> c_nsps x) !! n with Some v => v.1.1 | None => "" end.
  Proof. unfold name_of. rewrite list_lookup_fmap. by destruct (c_nsps x !! n). Qed.
  Definition same_view (s s' : sys) : Prop :=
    c_reg s'.1 = c_reg s.1 ∧ nsp_view <$> c_nsps s'.1 = nsp_view <$> c_nsps s.1 ∧ (∀ p, kids s'.1 p = kids s.1 p) ∧ announced s'.2 = announced s.2.
  Lemma same_view_trans s1 s2 s3 : same_view s1 s2 → same_view s2 s3 → same_view s1 s3.
  Proof. intros (A1 & A2 & A3 & A4) (B1 & B2 & B3 & B4). split_and!; [congruence|congruence| |congruence]. intros p. by rewrite B3. Qed.
  Lemma agree_frame names f s s' n : same_view s s' → c_socks s'.1 = c_socks s.1 → agree names f s n → agree names f s' n.
  Proof.
    intros (E1 & E2 & E3 & E4) E5 [A1 A2 A3 A4 A5 (g & G1 & G2 & G3 & G4)]. split.
    - by rewrite E1.
    - by rewrite E2.
    - intros p. by rewrite E3.
    - by rewrite E4.
    - done.
    - exists g. rewrite E5. split_and!; [done..|]. intros k a i Hk Hi. destruct (G4 k a i Hk Hi) as (t & Ht & Hm & Hs). exists t. split_and!; [done| |done].
      by rewrite Hm, !name_view, E2.
  Qed.

  Definition sim (names : list string) (s : sys) : Prop := ∀ f, ∃ n, by_turns n ∧ agree names f s n.
  Lemma sim_frame names s s' : same_view s s' → c_socks s'.1 = c_socks s.1 → sim names s → sim names s'.
  Proof. intros H1 H2 Hs f. destruct (Hs f) as (n & Hn & Ha). exists n. split; [done|]. by eapply agree_frame. Qed.

  Definition with_flag (f : nat → bool) (k : nat) (b : bool) : nat → bool := λ j, if decide (j = k) then b else f j.
  Lemma asked_insert l i t pc : l !! i = Some t → is_Some (nt_client t) → asked (<[i := with_pc t pc]> l) = asked l.
  Proof.
    intros H [c Hc]. unfold asked. rewrite <- (take_drop_middle l i t H) at 2. rewrite insert_take_drop by (by eapply lookup_lt_Some). rewrite !omap_app. cbn. by rewrite Hc.
  Qed.
  Lemma stands_engaged a b t : stands a b t → engaged t.
  Proof.
    unfold stands, engaged. destruct (sk_connected a); [|destruct (sk_can_join a)]; intros [H1 H2]; rewrite H2; try (rewrite H1; by eauto).
    split; [|done]. destruct (nt_client t); [eauto|done].
  Qed.
  (** The goroutine of socket [k] moves. *)
  Lemma agree_move names f b (s s' : sys) n k a (h : sock → sock) pc : agree names (with_flag f k b) s n → c_socks s.1 !! k = Some a →
    c_socks s'.1 = alter h k (c_socks s.1) → (∀ c, sk_nsp (h c) = sk_nsp c) → (∀ m, name_of s'.1 m = name_of s.1 m) → 
    (∀ i t, n_threads n !! i = Some t → nt_name t = name_of s.1 (sk_nsp a) → stands a b t → 
       ∃ T O C E, by_turns (at_pc T O C E (n_threads n) i (with_pc t pc)) ∧ stands (h a) (f k) (with_pc t pc) ∧
         T = c_reg s'.1 ∧ obj_view <$> O = nsp_view <$> c_nsps s'.1 ∧ (∀ p, default ∅ (C !! p) = kids s'.1 p) ∧ E = announced s'.2) →
    ∃ n', by_turns n' ∧ agree names f s' n'.
  Proof.
    intros [A1 A2 A3 A4 A5 (g & G1 & G2 & G3 & G4)] Hk Es Hh Hnm Hgo.
    destruct (lookup_lt_is_Some_2 g k) as [i Hi]; [rewrite G2; by eapply lookup_lt_Some|].
    destruct (G4 k a i Hk Hi) as (t & Ht & Hm & Hs). unfold with_flag in Hs. rewrite decide_True in Hs by done.
    destruct (Hgo i t Ht Hm Hs) as (T & O & C & E & Hb & Hs' & -> & HO & HC & ->).
    eexists. split; [exact Hb|]. split; try done; cbn [n_threads at_pc].
    - rewrite asked_insert; [done|done|]. by apply stands_engaged in Hs as [? _].
    - exists g. split; [done|]. split; [by rewrite Es, alter_length|]. split.
      + intros j u. intros [(<- & <- & _)|[_ Hu]]%list_lookup_insert_Some; [|by apply G3]. split; [intros _|intros _; by eapply stands_engaged]. apply (G3 i t Ht). by eapply stands_engaged.
      + intros j c jj. rewrite Es, alter_lookup. destruct (decide (j = k)) as [->|Hjk].
        * intros (c0 & Hc0 & ->)%fmap_Some Hj. rewrite Hk in Hc0. injection Hc0 as <-. rewrite Hi in Hj. injection Hj as <-.
          eexists. split; [apply list_lookup_insert; by eapply lookup_lt_Some|]. split; [by rewrite Hnm, Hh|done].
        * intros Hc Hj. destruct (G4 j c jj Hc Hj) as (u & Hu & Hum & Hus). exists u. split.
          -- rewrite list_lookup_insert_ne; [done|]. intros ->. apply Hjk. by eapply NoDup_lookup.
          -- split; [by rewrite Hnm|]. unfold with_flag in Hus. by rewrite decide_False in Hus.
  Qed.

  Lemma view_alter (x : core) n f g : (∀ np, nsp_view (f np) = g (nsp_view np)) → nsp_view <$> alter f n (c_nsps x) = alter g n (nsp_view <$> c_nsps x).
  Proof. intros H. apply list_eq. intros j. rewrite list_lookup_fmap, !alter_lookup, list_lookup_fmap. destruct (decide (j = n)); [|done]. destruct (c_nsps x !! j); [|done]. cbn. by rewrite H. Qed.
  Lemma obj_alter (O : list nobj) n f g : (∀ o, obj_view (f o) = g (obj_view o)) → obj_view <$> alter f n O = alter g n (obj_view <$> O).
  Proof. intros H. apply list_eq. intros j. rewrite list_lookup_fmap, !alter_lookup, list_lookup_fmap. destruct (decide (j = n)); [|done]. destruct (O !! j); [|done]. cbn. by rewrite H. Qed.
  Lemma name_alter (x x' : core) n f : c_nsps x' = alter f n (c_nsps x) → (∀ np, np_name (f np) = np_name np) → ∀ m, name_of x' m = name_of x m.
  Proof. intros E H m. unfold name_of. rewrite E, alter_lookup. destruct (decide (m = n)); [|done]. destruct (c_nsps x !! m); [|done]. cbn. apply H. Qed.

  Lemma sim_leave names os k a s s' : invA s.1 → sim names s → c_socks s.1 !! k = Some a → sk_can_join a = true →
    c_socks s'.1 = alter (sk_set false false) k (c_socks s.1) →
    c_nsps s'.1 = alter (drop os (sk_id a)) (sk_nsp a) (c_nsps s.1) →
    c_reg s'.1 = match reaps cl a s.1 with Some (m, _) => delete m (c_reg s.1) | None => c_reg s.1 end →
    c_parents s'.1 = match reaps cl a s.1 with Some (_, p) => alter (λ q, pa_set_children (pa_children q ∖ {[sk_nsp a]}) q) p (c_parents s.1) | None => c_parents s.1 end →
    announced s'.2 = announced s.2 → sim names s'.
  Proof.
    intros A Hs Hk Hj E1 E2 E3 E4 E5 f. destruct (Hs (with_flag f k false)) as (n & Hn & Ha).
    eapply (agree_move _ f false s s' n k a (sk_set false false) PEnd Ha Hk E1); [done|by eapply name_alter|].
    intros i t Ht Hm Hst. destruct Ha as [A1 A2 A3 A4 A5 _].
    destruct (ia_wf _ A _ _ Hk) as [Hlt _]. apply lookup_lt_is_Some in Hlt as [np Hnp].
    assert (∃ o, n_objs n !! sk_nsp a = Some o ∧ obj_view o = nsp_view np) as (o & Ho & Eo).
    { apply (f_equal (.!! sk_nsp a)) in A2. rewrite !list_lookup_fmap, Hnp in A2. cbn in A2. apply fmap_Some in A2 as (o & ? & ?). eauto. }
    injection Eo as Eo1 Eo2 Eo3.
    assert (∃ b, nt_client t = Some (sk_id a, b) ∧ (nt_pc t = PIn (sk_nsp a) ∨ b = false ∧ nt_pc t = PGot (sk_nsp a))) as (b & Hc & Hp).
    { unfold stands in Hst. rewrite Hj in Hst. destruct (sk_connected a), Hst as [-> ->]; eauto 10. }
    destruct (run_leave cl (n_table n) (n_objs n) (n_children n) (n_events n) (n_threads n) i t (sk_nsp a) (sk_id a) b o) as (m & O & Hrun & HO); [by eapply lookup_lt_Some|done..|].
    assert (reaps cl a s.1 = (λ p, (nt_name t, p)) <$> reaped cl (sk_nsp a) (sk_id a) o) as Ereap.
    { unfold reaps, reaped. rewrite Hnp, Eo2, Eo3, Hm. unfold name_of. rewrite Hnp.
      replace (bool_decide (delete (sk_id a) (np_sockets np) = ∅)) with (bool_decide (dom (np_sockets np) ∖ {[sk_id a]} = ∅)).
      - destruct (np_parent np), (cl && _); done.
      - apply bool_decide_ext. rewrite <- dom_delete_L. apply dom_empty_iff_L. }
    exists (c_reg s'.1), O, (match reaped cl (sk_nsp a) (sk_id a) o with Some p => <[p := default ∅ (n_children n !! p) ∖ {[sk_nsp a]}]> (n_children n) | None => n_children n end), (n_events n).
    split; [|split; [|split; [done|split; [|split]]]].
    - eapply (by_turns_go n i t m); [done|done|done|]. rewrite Hrun, E3, Ereap, <- A1. by destruct (reaped cl (sk_nsp a) (sk_id a) o).
    - split; [cbn; by rewrite Hc|done].
    - rewrite HO, E2. rewrite (obj_alter _ _ _ (λ v, (v.1, v.2 ∖ {[sk_id a]}))) by done.
      rewrite (view_alter _ _ _ (λ v, (v.1, v.2 ∖ {[sk_id a]}))); [by rewrite A2|]. intros np0. unfold nsp_view. cbn. by rewrite dom_delete_L.
    - intros p. unfold kids. rewrite E4, Ereap. specialize (A3 p). unfold children in A3. destruct (reaped cl (sk_nsp a) (sk_id a) o) as [p'|]; cbn; [|done].
      rewrite alter_lookup. destruct (decide (p = p')) as [->|Hne].
      + rewrite lookup_insert. cbn. rewrite A3. unfold kids. destruct (c_parents s.1 !! p'); [done|]. cbn. set_solver.
      + by rewrite lookup_insert_ne.
    - by rewrite E5.
  Qed.
  Lemma sim_connect names k a s s' : sim names s → c_socks s.1 !! k = Some a → sk_connected a = false → sk_can_join a = true →
    c_socks s'.1 = alter (sk_set true true) k (c_socks s.1) →
    c_nsps s'.1 = alter (enter a k) (sk_nsp a) (c_nsps s.1) →
    c_reg s'.1 = c_reg s.1 → c_parents s'.1 = c_parents s.1 → announced s'.2 = announced s.2 → sim names s'.
  Proof.
    intros Hs Hk Hc Hj E1 E2 E3 E4 E5 f. destruct (Hs (with_flag f k true)) as (n & Hn & Ha).
    eapply (agree_move _ f true s s' n k a (sk_set true true) (PIn (sk_nsp a)) Ha Hk E1); [done|by eapply name_alter|].
    intros i t Ht Hm Hst. destruct Ha as [A1 A2 A3 A4 A5 _]. unfold stands in Hst. rewrite Hc, Hj in Hst. destruct Hst as [Hcl Hpc].
    exists (c_reg s'.1), (alter (nsocks (λ x, {[sk_id a]} ∪ x)) (sk_nsp a) (n_objs n)), (n_children n), (n_events n).
    split; [|split; [|split; [done|split; [|split]]]].
    - eapply (by_turns_go n i t 1); [done|done|done|]. erewrite run_admit; [by rewrite E3, <- A1|by eapply lookup_lt_Some|done|done].
    - split; [done|done].
    - rewrite E2. rewrite (obj_alter _ _ _ (λ v, (v.1, {[sk_id a]} ∪ v.2))) by done.
      rewrite (view_alter _ _ _ (λ v, (v.1, {[sk_id a]} ∪ v.2))); [by rewrite A2|]. intros np0. unfold nsp_view. cbn. by rewrite dom_insert_L.
    - intros p. unfold kids. rewrite E4. apply A3.
    - by rewrite E5.
  Qed.

  (** A new goroutine that belongs to no socket. *)
  Lemma agree_ask names f s s' n m fn rx o T O C E : agree names f s n → (∀ j, j < length (c_nsps s.1) → name_of s'.1 j = name_of s.1 j) → invA s.1 → c_socks s'.1 = c_socks s.1 →
    T = c_reg s'.1 → obj_view <$> O = nsp_view <$> c_nsps s'.1 → (∀ p, default ∅ (C !! p) = kids s'.1 p) → E = announced s'.2 →
    agree (names ++ [m]) f s' (NState T O C E (n_threads n ++ [NThread m None fn rx (PGot o)])).
  Proof.
    intros [A1 A2 A3 A4 A5 (g & G1 & G2 & G3 & G4)] Hnm A Es HT HO HC HE. split; try done; cbn.
    - unfold asked. rewrite omap_app. cbn. unfold asked in A5. by rewrite A5.
    - exists g. rewrite Es. split; [done|]. split; [done|]. split.
      + intros i t [Ht|[Hge Ht]]%lookup_app_Some; [by apply G3|]. apply list_lookup_singleton_Some in Ht as [H0 <-]. cbn. split; [by intros [[] _]|].
        intros (k & Hi)%elem_of_list_lookup. destruct (lookup_lt_is_Some_2 (c_socks s.1) k) as [a Hk]; [rewrite <- G2; by eapply lookup_lt_Some|].
        destruct (G4 k a i Hk Hi) as (t & Hl%lookup_lt_Some & _). lia.
      + intros k a i Hk Hi. destruct (G4 k a i Hk Hi) as (t & Ht & Hm & Hst). exists t. split; [by apply lookup_app_l_Some|]. split; [|done].
        rewrite Hnm; [done|]. apply (ia_wf _ A _ _ Hk).
  Qed.
  (** A new client. *)
  Lemma agree_client names f s s' n m a fn rx T O C E : agree names f s n → (∀ j, j < length (c_nsps s.1) → name_of s'.1 j = name_of s.1 j) → invA s.1 →
    c_socks s'.1 = c_socks s.1 ++ [a] → name_of s'.1 (sk_nsp a) = m → sk_connected a = false → sk_can_join a = true →
    T = c_reg s'.1 → obj_view <$> O = nsp_view <$> c_nsps s'.1 → (∀ p, default ∅ (C !! p) = kids s'.1 p) → E = announced s'.2 →
    agree names f s' (NState T O C E (n_threads n ++ [NThread m (Some (sk_id a, f (length (c_socks s.1)))) fn rx (PGot (sk_nsp a))])).
  Proof.
    intros [A1 A2 A3 A4 A5 (g & G1 & G2 & G3 & G4)] Hnm A Es Em Ec Ej HT HO HC HE. split; try done; cbn.
    - unfold asked. rewrite omap_app. cbn. unfold asked in A5. by rewrite app_nil_r.
    - assert (∀ i, i ∈ g → i < length (n_threads n)) as Hlt.
      { intros i (k & Hi)%elem_of_list_lookup. destruct (lookup_lt_is_Some_2 (c_socks s.1) k) as [b Hk]; [rewrite <- G2; by eapply lookup_lt_Some|].
        destruct (G4 k b i Hk Hi) as (t & Hl%lookup_lt_Some & _). lia. }
      exists (g ++ [length (n_threads n)]). rewrite Es. split; [|split; [|split]].
      + apply NoDup_app. split; [done|]. split; [|apply NoDup_singleton]. intros i Hi Hi'%elem_of_list_singleton. apply Hlt in Hi. lia.
      + rewrite !app_length. cbn. lia.
      + intros i t [Ht|[Hge Ht]]%lookup_app_Some.
        * rewrite (G3 i t Ht), elem_of_app, elem_of_list_singleton. apply lookup_lt_Some in Ht. split; [by left|]. intros [?|?]; [done|lia].
        * apply list_lookup_singleton_Some in Ht as [H0 <-]. cbn. rewrite elem_of_app, elem_of_list_singleton. split; [right; lia|]. intros _. split; cbn; eauto.
      + intros k b i [Hk|[Hge Hk]]%lookup_app_Some Hi.
        * rewrite lookup_app_l in Hi by (rewrite G2; by eapply lookup_lt_Some). destruct (G4 k b i Hk Hi) as (t & Ht & Hm & Hst). exists t. split; [by apply lookup_app_l_Some|]. split; [|done].
          rewrite Hnm; [done|]. apply (ia_wf _ A _ _ Hk).
        * apply list_lookup_singleton_Some in Hk as [H0 <-]. assert (k = length (c_socks s.1)) as -> by lia.
          rewrite <- G2, lookup_app_r, Nat.sub_diag in Hi by done. injection Hi as <-.
          eexists. split; [by rewrite lookup_app_r, Nat.sub_diag|]. split; [by symmetry|]. unfold stands. rewrite Ec, Ej. done.
  Qed.

  Lemma len_objs names f s n : agree names f s n → length (n_objs n) = length (c_nsps s.1).
  Proof. intros [_ A2 _ _ _ _]. apply (f_equal length) in A2. by rewrite !fmap_length in A2. Qed.
  Lemma app_names (x x' : core) np : c_nsps x' = c_nsps x ++ [np] → (∀ j, j < length (c_nsps x) → name_of x' j = name_of x j) ∧ name_of x' (length (c_nsps x)) = np_name np.
  Proof. intros E. unfold name_of. rewrite E. split; [intros j Hj; by rewrite lookup_app_l|]. by rewrite lookup_app_r, Nat.sub_diag. Qed.
  Lemma sim_ask_found names s s' m o : invA s.1 → sim names s → c_reg s.1 !! m = Some o → same_view s s' → c_socks s'.1 = c_socks s.1 → sim (names ++ [m]) s'.
  Proof.
    intros A Hs Hm Hv E5 f. destruct (Hs f) as (n & Hn & Ha). pose proof Hv as (E1 & E2 & E3 & E4). pose proof Ha as [A1 A2 A3 A4 A5 _].
    eexists. split.
    - eapply (by_turns_new n (NThread m None None None PStart) 1); [done|done| |eapply run_of_found; [rewrite app_length; cbn; lia|by rewrite A1]]. done.
    - eapply agree_ask; [done| |done|done|congruence|congruence| |congruence].
      + intros j _. by rewrite !name_view, E2.
      + intros p. rewrite E3. apply A3.
  Qed.
  Lemma sim_ask_new names s s' m np : invA s.1 → sim names s → c_reg s.1 !! m = None → nsp_view np = (m, None, ∅) → c_reg s'.1 = <[m := length (c_nsps s.1)]> (c_reg s.1) →
    c_nsps s'.1 = c_nsps s.1 ++ [np] → c_parents s'.1 = c_parents s.1 → announced s'.2 = (if decide (m = "/") then announced s.2 else announced s.2 ++ [length (c_nsps s.1)]) →
    c_socks s'.1 = c_socks s.1 → sim (names ++ [m]) s'.
  Proof.
    intros A Hs Hm Hv E1 E2 E3 E4 E5 f. destruct (Hs f) as (n & Hn & Ha). pose proof Ha as [A1 A2 A3 A4 A5 _]. pose proof (len_objs _ _ _ _ Ha) as Hl.
    eexists. split.
    - eapply (by_turns_new n (NThread m None None None PStart) 4); [done|done| |eapply run_of_new; [rewrite app_length; cbn; lia|by rewrite A1]]. done.
    - eapply agree_ask; [done|by eapply app_names|done|done|by rewrite E1, A1, Hl| | |by rewrite E4, A4, Hl].
      + rewrite E2, !fmap_app, A2. cbn. by rewrite Hv.
      + intros p. unfold kids. rewrite E3. apply A3.
  Qed.
  (** The state after CreateChild. *)
  Definition child_of (p : nat) (m : string) (s s' : sys) : Prop :=
    ∃ np q, nsp_view np = (m, Some p, ∅) ∧ c_reg s'.1 = <[m := length (c_nsps s.1)]> (c_reg s.1) ∧ nsp_view <$> c_nsps s'.1 = nsp_view <$> (c_nsps s.1 ++ [np]) ∧
      c_parents s.1 !! p = Some q ∧ (∀ p', kids s'.1 p' = if decide (p' = p) then {[length (c_nsps s.1)]} ∪ kids s.1 p else kids s.1 p') ∧
      announced s'.2 = announced s.2 ++ [length (c_nsps s.1)].
  Lemma child_names p m s s' : child_of p m s s' → (∀ j, j < length (c_nsps s.1) → name_of s'.1 j = name_of s.1 j) ∧ name_of s'.1 (length (c_nsps s.1)) = m.
  Proof.
    intros (np & q & Hv & _ & E2 & _). split.
    - intros j Hj. rewrite !name_view, E2, fmap_app, lookup_app_l by (by rewrite fmap_length). done.
    - rewrite name_view, E2, fmap_app, lookup_app_r, fmap_length, Nat.sub_diag by (by rewrite fmap_length). cbn. by injection Hv.
  Qed.
  Lemma child_kids p m s s' n names f : child_of p m s s' → agree names f s n →
    ∀ p', default ∅ (<[p := {[length (n_objs n)]} ∪ default ∅ (n_children n !! p)]> (n_children n) !! p') = kids s'.1 p'.
  Proof.
    intros (np & q & Hv & _ & _ & Eq & E3 & _) Ha p'. rewrite E3, (len_objs _ _ _ _ Ha). pose proof (ag_kids _ _ _ _ Ha) as A3. unfold children in A3.
    destruct (decide (p' = p)) as [->|]; [rewrite lookup_insert; cbn; by rewrite A3|rewrite lookup_insert_ne by done; apply A3].
  Qed.
  Lemma sim_ask_child names s s' m p : invA s.1 → sim names s → c_reg s.1 !! m = None → child_of p m s s' → c_socks s'.1 = c_socks s.1 → sim (names ++ [m]) s'.
  Proof.
    intros A Hs Hm Hc E5 f. destruct (Hs f) as (n & Hn & Ha). pose proof Ha as [A1 A2 A3 A4 A5 _]. pose proof (len_objs _ _ _ _ Ha) as Hl.
    eexists. split.
    - eapply (by_turns_new n (NThread m None None (Some p) PStart) 5); [done|done| |eapply run_of_child; [rewrite app_length; cbn; lia|by rewrite A1]]. done.
    - eapply agree_ask; [done|by eapply child_names|done|done| | |by eapply child_kids|].
      + destruct Hc as (np & q & _ & E1 & _). by rewrite E1, A1, Hl.
      + destruct Hc as (np & q & Hv & _ & E2 & _). rewrite E2, !fmap_app, A2. cbn. by rewrite Hv.
      + destruct Hc as (np & q & _ & _ & _ & _ & _ & E4). by rewrite E4, A4, Hl.
  Qed.
  Lemma sim_add names s s' m a : invA s.1 → sim names s → c_reg s.1 !! m = Some (sk_nsp a) → same_view s s' → c_socks s'.1 = c_socks s.1 ++ [a] →
    sk_connected a = false → sk_can_join a = true → sim names s'.
  Proof.
    intros A Hs Hm Hv E5 Ec Ej f. destruct (Hs f) as (n & Hn & Ha). pose proof Hv as (E1 & E2 & E3 & E4). pose proof Ha as [A1 A2 A3 A4 A5 _].
    eexists. split.
    - eapply (by_turns_new n (NThread m (Some (sk_id a, f (length (c_socks s.1)))) None None PStart) 2); [done|done| |eapply run_enter; [rewrite app_length; cbn; lia|by rewrite A1]]. done.
    - eapply agree_client; [done| |done|done| |done|done|congruence|congruence| |congruence].
      + intros j _. by rewrite !name_view, E2.
      + destruct (ia_name _ A _ _ Hm) as (np & Hnp & <-). rewrite name_view, E2, <- name_view. unfold name_of. by rewrite Hnp.
      + intros p. rewrite E3. apply A3.
  Qed.
  Lemma sim_add_child names s s1 s' m p a : invA s.1 → sim names s → c_reg s.1 !! m = None → child_of p m s s1 → same_view s1 s' → c_socks s'.1 = c_socks s.1 ++ [a] → sk_nsp a = length (c_nsps s.1) →
    sk_connected a = false → sk_can_join a = true → sim names s'.
  Proof.
    intros A Hs Hm Hc0 Hv E5 En Ec Ej f. destruct (Hs f) as (n & Hn & Ha). pose proof Ha as [A1 A2 A3 A4 A5 _]. pose proof (len_objs _ _ _ _ Ha) as Hl.
    assert (child_of p m s s') as Hc.
    { destruct Hv as (V1 & V2 & V3 & V4), Hc0 as (np & q & ? & ? & ? & ? & H3 & ?). exists np, q. split_and!; try congruence. intros p'. by rewrite V3, H3. }
    eexists. split.
    - eapply (by_turns_new n (NThread m (Some (sk_id a, f (length (c_socks s.1)))) (Some p) None PStart) 8); [done|done| |eapply run_enter_child; [rewrite app_length; cbn; lia|by rewrite A1]]. done.
    - rewrite Hl, <- En. eapply agree_client; [done|by eapply child_names|done|done| |done|done| | | |].
      + rewrite En. by eapply child_names.
      + destruct Hc as (np & q & _ & E1 & _). by rewrite E1, A1, En.
      + destruct Hc as (np & q & Hv' & _ & E2 & _). rewrite E2, !fmap_app, A2. cbn. by rewrite Hv'.
      + rewrite En, <- Hl. by eapply child_kids.
      + destruct Hc as (np & q & _ & _ & _ & _ & _ & E4). by rewrite E4, A4, En.
  Qed.
End sim.

Section steps.
  Context (csr skip clean : bool).
  Notation sstep := (step csr skip clean).
  Notation srun := (run csr skip clean).
  Notation sim := (sim clean).
  Notation cprim := (cprim csr clean (λ _ _, True)).
  (** ** What changes nothing *)
  Lemma view_refl s : same_view s s.
  Proof. done. Qed.
  Lemma view_log e s : (∀ n, e ≠ ENewNsp n) → same_view s (log e s).
  Proof. intros H. split_and!; try done. unfold announced. cbn. rewrite omap_app. cbn. destruct e; rewrite ?app_nil_r; try done. by destruct (H n). Qed.
  Lemma view_nsp n f s : (∀ np, nsp_view (f np) = nsp_view np) → same_view s (upd_nsp n f s).
  Proof.
    intros H. split_and!; try done. cbn. rewrite (view_alter _ _ _ id); [|done]. apply list_eq. intros j. rewrite alter_lookup. destruct (decide (j = n)); [|done]. by destruct ((nsp_view <$> c_nsps s.1) !! j).
  Qed.
  Lemma view_parent p f s : (∀ q, pa_children (f q) = pa_children q) → same_view s (upd_parent p f s).
  Proof.
    intros H. split_and!; try done. intros p'. unfold kids. cbn. rewrite alter_lookup. destruct (decide (p' = p)); [|done]. destruct (c_parents s.1 !! p'); [|done]. cbn. by rewrite H.
  Qed.
  Lemma view_write c p s : same_view s (write c p s).
  Proof. unfold write. destruct (is_open s.1 c); [by apply view_log|apply view_refl]. Qed.
  Lemma view_packet k ty d s : same_view s (sock_packet k ty d s).
  Proof. unfold sock_packet. destruct (c_socks s.1 !! k); [apply view_write|apply view_refl]. Qed.
  Lemma view_join k rs s : same_view s (join k rs s).
  Proof. unfold join. destruct (c_socks s.1 !! k) as [a|]; [|apply view_refl]. destruct (sk_can_join a); [by apply view_nsp|apply view_refl]. Qed.
  Lemma view_leave k r s : same_view s (leave k r s).
  Proof. unfold leave. destruct (c_socks s.1 !! k) as [a|]; [by apply view_nsp|apply view_refl]. Qed.
  Lemma view_foldl {B} (f : sys → B → sys) l s : (∀ s b, same_view s (f s b)) → same_view s (foldl f s l).
  Proof. intros H. revert s. induction l as [|b l IH]; intros s; [apply view_refl|]. cbn. eapply same_view_trans; [apply H|apply IH]. Qed.
  Lemma view_create c n x s : same_view s (create_socket csr c n x s).
  Proof.
    unfold create_socket. destruct (if csr then x_prev x else None) as [[[i rs] missed]|]; [|done].
    eapply same_view_trans; [|apply view_foldl; intros; apply view_packet]. eapply same_view_trans; [|apply view_foldl; intros; apply view_join]. done.
  Qed.

  (** ** Closing *)
  Lemma announced_app l l' : announced (l ++ l') = announced l ++ announced l'.
  Proof. apply omap_app. Qed.
  Lemma sim_cprim names s s' : cprim s s' → invA s.1 → sim names s → sim names s'.
  Proof.
    intros H A. destruct H as [e s He|e a s _ He|k p a s _ Hk Hc|c s|c s Ho|i s|os reason k a s _ Hos Hk Hc].
    - apply sim_frame; [|done]. apply view_log. intros n ->. done.
    - apply sim_frame; [|done]. apply view_log. intros n ->. done.
    - apply sim_frame; [|done]. by apply view_log.
    - by apply sim_frame.
    - by apply sim_frame.
    - by apply sim_frame.
    - intros Hs. eapply (sim_leave _ _ os k a s); [done|done|done|by eapply ia_live|..].
      + by rewrite (onclose_socks csr clean os reason k a).
      + by rewrite (onclose_nsps csr clean os reason k a).
      + by rewrite (onclose_reg csr clean os reason k a).
      + by rewrite (onclose_parents csr clean os reason k a).
      + rewrite (onclose_log csr clean os reason k a), !announced_app by done. unfold close_logs. cbn. destruct (csr && _); cbn; by rewrite app_nil_r.
  Qed.
  Lemma sim_closing names s s' : rtc cprim s s' → invA s.1 → sim names s → sim names s'.
  Proof. induction 1 as [|s1 s2 s3 H1 H2 IH]; [done|]. intros A Hs. apply IH; [by eapply invA_cprim|by eapply sim_cprim]. Qed.
  Lemma sim_refuse names os k a s : sords_ok os → invA s.1 → c_socks s.1 !! k = Some a → sk_connected a = false → sk_can_join a = true → sim names s → sim names (cleanup clean os k s).
  Proof.
    intros Hos A Hk Hc Hj Hs. eapply (sim_leave _ _ os k a s); [done|done|done|done|..].
    - rewrite cleanup_socks. apply list_eq. intros j. rewrite !alter_lookup. destruct (decide (j = k)) as [->|]; [|done]. rewrite Hk. cbn. by rewrite Hc.
    - by rewrite (cleanup_nsps clean os k a).
    - by rewrite (cleanup_reg clean os k a).
    - by rewrite (cleanup_parents clean os k a).
    - by rewrite cleanup_log.
  Qed.
  Lemma sim_do_connect names k a s : c_socks s.1 !! k = Some a → sk_connected a = false → sk_can_join a = true → is_open s.1 (sk_client a) = true → sim names s → sim names (do_connect k s).
  Proof.
    intros Hk Hc Hj Ho Hs. rewrite (do_connect_eq k a) by done. eapply (sim_connect _ _ k a s); try done. cbn. rewrite announced_app. cbn. by rewrite app_nil_r.
  Qed.
  Lemma sim_verdict names os k err s : sords_ok os → invA s.1 → pending s.1 k → sim names s → sim names (verdict clean os k err s).
  Proof.
    intros Hos A (a & Hk & Hc & Hj) Hs. unfold verdict. rewrite Hk. destruct (is_open s.1 (sk_client a)) eqn:Ho; [destruct err|].
    - eapply sim_frame; [apply view_packet|by rewrite sock_packet_core|]. by eapply sim_refuse.
    - by eapply sim_do_connect.
    - by eapply sim_refuse.
  Qed.

  (** ** Of *)
  Lemma create_child_of p m s q : c_parents s.1 !! p = Some q → child_of p m s (create_child p m s).
  Proof.
    intros Eq. unfold create_child. rewrite Eq. exists (Nspc m (Some p) empty_registry ∅ (pa_on q) (pa_fns q)), q. split_and!; try done.
    - unfold nsp_view. cbn. by rewrite dom_empty_L.
    - intros p'. unfold kids. cbn. rewrite alter_lookup. destruct (decide (p' = p)) as [->|]; [|done]. by rewrite Eq.
    - cbn. rewrite announced_app. done.
  Qed.
  Lemma first_match_parent os x m p : first_match os x m = Some p → is_Some (c_parents x !! p).
  Proof.
    unfold first_match. intros H. destruct (filter _ _) as [|p' l] eqn:E; [done|]. injection H as ->.
    assert (p ∈ filter (λ p, regex_matches x m p) (so_parents os (seq 0 (length (c_parents x))))) as Hin by (rewrite E; left).
    apply elem_of_list_filter in Hin as [Hin _]. unfold regex_matches in Hin. destruct (c_parents x !! p); [eauto|done].
  Qed.
  Lemma sim_of names os raw fn s : invA s.1 → sim names s → sim (names ++ [norm raw]) (of_name os raw fn s).
  Proof.
    intros A Hs. unfold of_name. destruct (c_reg s.1 !! norm raw) as [o|] eqn:Er.
    - apply (sim_ask_found _ _ s _ _ o); [done|done|done| |]; destruct fn; try done. by apply view_nsp.
    - destruct (first_match os s.1 (norm raw)) as [p|] eqn:Ef.
      + destruct (first_match_parent _ _ _ _ Ef) as [q Hq]. eapply (sim_ask_child _ _ s); [done|done|done|by eapply create_child_of|apply create_child_socks].
      + assert (sim (names ++ [norm raw]) (if decide (norm raw = "/") then new_nsp (Nspc (norm raw) None empty_registry ∅ [] []) s
                  else log (ENewNsp (length (c_nsps s.1))) (new_nsp (Nspc (norm raw) None empty_registry ∅ [] []) s))) as H.
        { eapply (sim_ask_new _ _ s _ _ (Nspc (norm raw) None empty_registry ∅ [] [])); [done|done|done| |by destruct (decide (norm raw = "/"))..| |by destruct (decide (norm raw = "/"))].
          - unfold nsp_view. cbn. by rewrite dom_empty_L.
          - destruct (decide (norm raw = "/")); [done|]. cbn. rewrite announced_app. done. }
        destruct fn as [f|]; [|exact H]. cbv zeta. destruct (decide (norm raw = "/")); (match goal with |- context [match ?c with Some n => upd_nsp n _ _ | None => _ end] => destruct c end; [|exact H]; eapply sim_frame; [by apply view_nsp|done|exact H]).
  Qed.

  (** ** Clients *)
  Lemma sim_create_enter names c n x s0 s : (∀ s' a, same_view s s' → c_socks s'.1 = c_socks s.1 ++ [a] → sk_nsp a = n → sk_connected a = false → sk_can_join a = true → sim names s') →
    s0 = s → sim names (add csr skip c n x s).
  Proof.
    intros H _. destruct (create_socket_socks csr c n x s) as (a & Es & Ec & Ej & En & Ecl & _).
    assert (sim names (create_socket csr c n x s)) as Hs by (eapply H; [apply view_create|done..]).
    unfold add. destruct (skip && _ && is_open _ c) eqn:E; [|done]. apply andb_prop in E as [_ E].
    apply (sim_do_connect _ _ a); [by rewrite Es, lookup_app_r, Nat.sub_diag|done|done|by rewrite Ecl|done].
  Qed.
  Lemma sim_join names os c m x s : norm m = m → invA s.1 → sim names s → is_Some (c_reg s.1 !! m) → sim names (client_do_connect csr skip os c m x s).
  Proof.
    intros Hm A Hs [n Hn]. unfold client_do_connect. replace (of_name os m None s) with s by (unfold of_name; by rewrite Hm, Hn). rewrite Hm, Hn.
    eapply sim_create_enter; [|done]. intros s' a Hv Es En Ec Ej. eapply (sim_add _ _ s s' m a); try done. by rewrite En.
  Qed.
  Lemma sim_accept names os c p m x s : norm m = m → invA s.1 → sim names s → is_Some (c_parents s.1 !! p) → sim names (accept csr skip os c p m x s).
  Proof.
    intros Hm A Hs [q Hq]. unfold accept. destruct (c_reg s.1 !! m) as [n|] eqn:E; [apply sim_join; eauto|].
    pose proof (create_child_of p m s q Hq) as Hc. unfold client_do_connect.
    assert (c_reg (create_child p m s).1 !! m = Some (length (c_nsps s.1))) as Hr by (unfold create_child; rewrite Hq; cbn; apply lookup_insert).
    replace (of_name os m None (create_child p m s)) with (create_child p m s) by (unfold of_name; by rewrite Hm, Hr). rewrite Hm, Hr.
    eapply sim_create_enter; [|done]. intros s' a Hv Es En Ec Ej. eapply (sim_add_child _ _ s (create_child p m s) s' m p a); try done. by rewrite Es, create_child_socks.
  Qed.
  Lemma check_parent x ans m ps p : check_loop x ans m ps = Some p → is_Some (c_parents x !! p).
  Proof.
    induction ps as [|p' ps IH]; [done|]. cbn. destruct (answer x ans m p') as [[]|] eqn:E; [|done|done]. intros [= ->].
    unfold answer in E. destruct (c_parents x !! p); [eauto|done].
  Qed.
  Lemma sim_conn names os c m ans x s : norm m = m → invA s.1 → sim names s → sim names (connect csr skip os c m ans x s).
  Proof.
    intros Hm A Hs. unfold connect. destruct (c_reg s.1 !! m) eqn:E; [apply sim_join; eauto|].
    destruct (check_loop _ _ _ _) as [p|] eqn:Ec; [apply sim_accept; [done..|by eapply check_parent]|]. eapply sim_frame; [apply view_write|unfold deny; by rewrite write_core|done].
  Qed.

  (** ** Every operation *)
  Definition framed (s s' : sys) : Prop := same_view s s' ∧ c_socks s'.1 = c_socks s.1 ∧ (invA s.1 → invA s'.1).
  Lemma framed_inv s s' : framed s s' → invA s.1 → invA s'.1.
  Proof. intros (_ & _ & H). exact H. Qed.
  Lemma sim_framed names s s' : rtc framed s s' → sim names s → sim names s'.
  Proof. induction 1 as [|s1 s2 s3 (H1 & H2 & _) _ IH]; [done|]. intros Hs. apply IH. by eapply sim_frame. Qed.
  Lemma sim_bulk names os n cb opts s : (∀ k, goodR framed (cb k)) → invA s.1 → sim names s → sim names (apply_nsp os n cb opts s).
  Proof. intros H A. apply sim_framed. by apply (apply_goodR framed framed_inv). Qed.
  Definition ask (e : sords * op) : list string := match e.2 with OOf raw _ => [norm raw] | _ => [] end.
  Lemma sim_step names e s : op_env s e → slashed [e] → invA s.1 → sim names s → sim (names ++ ask e) (sstep e s).
  Proof.
    intros He Hsl A Hs. destruct (closing_step s e) eqn:Ecl.
    - assert (ask e = []) as -> by (unfold ask; destruct e as [os []]; done). rewrite app_nil_r.
      eapply sim_closing; [|done|done]. apply step_cprims; try done. apply He.
    - destruct He as [Hos He]. specialize (Hsl e (proj2 (elem_of_list_singleton e e) eq_refl)). destruct e as [os o]. unfold ask. cbn [fst snd] in *.
      destruct o; try discriminate; cbn [step fst snd] in *; rewrite ?app_nil_r.
      + assert (sim names (on_core (λ y, set_clients (c_clients y ++ [Client id p3 true ∅ ∅ true]) y) s)) as H by (by eapply sim_frame; [..|exact Hs]).
        destruct p3; [|done]. apply sim_conn; [done| |done].
        refine (invA_prim csr clean (λ _ _, True) (λ _ _, True) (λ _, True) s _ _ A). apply pr_open.
      + cbn in Ecl. destruct (is_open s.1 c) eqn:Eo; [|done]. unfold ondecoded, bad_packet in *. destruct (cnsps_of s.1 c !! p_nsp p) as [k|].
        * apply bool_decide_eq_false in Ecl. rewrite decide_False by done. by eapply sim_frame; [..|exact Hs].
        * apply bool_decide_eq_false in Ecl. destruct (decide _) as [Hd|Hd]; [|by destruct Ecl]. by apply sim_conn.
      + destruct He as (_ & q & Hq & _). apply sim_accept; eauto.
      + by apply sim_verdict.
      + eapply sim_frame; [apply view_join|by rewrite join_socks|done].
      + eapply sim_frame; [apply view_leave|by rewrite leave_socks|done].
      + by apply sim_of.
      + apply (sim_frame _ _ s); [|done|exact Hs]. split_and!; try done. intros p. unfold kids, of_parent. cbn.
        destruct (decide (p < length (c_parents s.1))); [by rewrite lookup_app_l|]. rewrite lookup_app_r by lia.
        rewrite (lookup_ge_None_2 (c_parents s.1)) by lia. by destruct (p - length (c_parents s.1)) as [|[]].
      + eapply sim_frame; [by apply view_parent|done|done].
      + eapply sim_frame; [by apply view_parent|done|done].
      + eapply sim_frame; [by apply view_nsp|done|done].
      + apply sim_bulk; [|done|done]. intros k s0 A0. apply rtc_once. split_and!; [apply view_join|by rewrite join_socks|by apply invA_join].
      + apply sim_bulk; [|done|done]. intros k. apply (goodR_foldl _ framed_inv). intros r s0 A0. apply rtc_once. split_and!; [apply view_leave|by rewrite leave_socks|by apply invA_leave].
  Qed.

  Lemma sim_init : sim ["/"] init.
  Proof.
    intros f. eexists. split.
    - eapply (by_turns_new clean (ninit []) (NThread "/" None None None PStart) 4); [|done| |eapply run_of_new; [cbn; lia|done]]; [|done].
      exists []. split; [by constructor|]. split; [done|by constructor].
    - split; [done| |done|done|done|].
      { cbn. unfold nsp_view, obj_view. cbn. by rewrite dom_empty_L. }
      exists []. split; [constructor|]. split; [done|]. split; [|done]. intros i t Ht. destruct i as [|i]; [|by destruct i]. injection Ht as <-. split; [by intros [[] _]|by intros ?%elem_of_nil].
  Qed.
  Lemma c72_turns_l h f : env_ok csr skip clean h → slashed h →
    ∃ ts n, unbegun ts ∧ rtc (turn clean) (ninit ts) n ∧ agree (asks h) f (srun h) n.
  Proof.
    intros He Hsl.
    assert (sim (asks h) (srun h)) as H.
    { induction h as [|e h IH] using rev_ind; [exact sim_init|].
      pose proof (run_inv csr skip clean (λ _, True) I (λ _ _ _ _ _, I) h (proj1 (proj1 (env_snoc _ _ _ _ _) He))) as [A _].
      apply env_snoc in He as [He Ho]. rewrite run_snoc.
      replace (asks (h ++ [e])) with (asks h ++ ask e).
      - apply sim_step; [done| |done|apply IH; [done|]].
        + intros e' Hin. apply Hsl. apply elem_of_app. by right.
        + intros e' Hin. apply Hsl. apply elem_of_app. by left.
      - unfold asks, ask. rewrite omap_app. cbn. f_equal. f_equal. destruct e as [os []]; done. }
    destruct (H f) as (n & (ts & Hu & Hr & _) & Ha). eauto.
  Qed.
End steps.
