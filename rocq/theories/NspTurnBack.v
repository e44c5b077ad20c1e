(** Proofs for C72, converse: every execution of the interleaving model in turns is a history of the server. *)
From Verif Require Import Base GoTypes Rooms RoomsSpec RoomsProofs Adapter AdapterSpec Session System SystemSpec SystemProofs SystemExamples NspConc NspConcSpec NspTurnSpec NspTurnProofs.

Section settle.
  Context (cl : bool).
  (** ** Goroutine [i] goes on until it rests *)
  Fixpoint settle (fuel : nat) (n : nstate) (i : nat) : nstate :=
    match fuel with
    | 0 => n
    | S fuel => match n_threads n !! i with Some t => if resting (nt_pc t) then n else settle fuel (nstep cl n i) i | None => n end
    end.
  Definition rests (n : nstate) (i : nat) : bool := match n_threads n !! i with Some t => resting (nt_pc t) | None => true end.
  Lemma settle_rests n i fuel : rests n i = true → settle fuel n i = n.
  Proof. destruct fuel; [done|]. cbn. unfold rests. destruct (n_threads n !! i); [|done]. by intros ->. Qed.
  Lemma settle_go n i fuel : rests n i = false → settle (S fuel) n i = settle fuel (nstep cl n i) i.
  Proof. cbn. unfold rests. destruct (n_threads n !! i); [|done]. by intros ->. Qed.
  Lemma settle_S n i fuel : rests (settle fuel n i) i = true → settle (S fuel) n i = settle fuel n i.
  Proof.
    revert n. induction fuel as [|fuel IH]; intros n H; [by apply settle_rests|].
    destruct (rests n i) eqn:E; [by rewrite !settle_rests|]. rewrite settle_go by done. rewrite (settle_go n) in H by done. rewrite (settle_go n) by done. by apply IH.
  Qed.
  (** What holds whenever [i] rests. *)
  Lemma settle_run (P : nstate → Prop) n i m : (∀ x, P x → at_rest x) → (∀ x, P x → P (settle 8 (nstep cl x i) i)) → P n → P (settle 8 (nrun cl n (replicate m i)) i).
  Proof.
    intros HP Hst Hn. assert (∀ x, P x → rests x i = true) as Hr.
    { intros x Hx%HP. unfold rests. destruct (n_threads x !! i) eqn:E; [|done]. exact (proj1 (Forall_lookup _ _) Hx i _ E). }
    induction m as [|m IH].
    - change (nrun cl n (replicate 0 i)) with n. rewrite settle_rests; auto.
    - rewrite replicate_S_end. unfold nrun in *. rewrite foldl_app. cbn [foldl]. set (y := foldl (nstep cl) n (replicate m i)) in *.
      destruct (rests y i) eqn:E; [rewrite settle_rests in IH by done; by apply Hst|].
      rewrite (settle_go y i 7) in IH by done. rewrite settle_S; [done|]. by apply Hr.
  Qed.

  Lemma sgo T O C E l i t fuel : i < length l → resting (nt_pc t) = false → settle (S fuel) (at_pc T O C E l i t) i = settle fuel (nstep cl (at_pc T O C E l i t) i) i.
  Proof. intros Hi Ht. apply settle_go. unfold rests. by rewrite lookup_at. Qed.
  Lemma sstop T O C E l i t fuel : i < length l → resting (nt_pc t) = true → settle fuel (at_pc T O C E l i t) i = at_pc T O C E l i t.
  Proof. intros Hi Ht. apply settle_rests. unfold rests. by rewrite lookup_at. Qed.

  Lemma set_of_found T O C E l i m fn rx o : i < length l → T !! m = Some o →
    settle 8 (nstep cl (at_pc T O C E l i (NThread m None fn rx PStart)) i) i = at_pc T O C E l i (NThread m None fn rx (PGot o)).
  Proof.
    intros Hi HT. unfold nstep. rewrite lookup_at by done. cbn -[settle]. rewrite HT, nset_at. by apply sstop.
  Qed.
  Lemma set_of_new T O C E l i m fn : i < length l → T !! m = None →
    settle 8 (nstep cl (at_pc T O C E l i (NThread m None fn None PStart)) i) i =
    at_pc (<[m := length O]> T) (O ++ [NObj m None ∅ false]) C (if decide (m = "/") then E else E ++ [length O]) l i (NThread m None fn None (PGot (length O))).
  Proof.
    intros Hi HT. unfold nstep at 1. rewrite lookup_at by done. cbn [nt_pc nt_client nt_name]. change (n_table (at_pc T O C E l i (NThread m None fn None PStart))) with T. rewrite HT, nset_at.
    rewrite sgo by done. unfold nstep at 1. rewrite lookup_at by done. cbn [nt_pc with_pc nt_rx nt_name]. rewrite ?nobjs_at, nset_at.
    rewrite sgo by done. unfold nstep at 1. rewrite lookup_at by done. cbn [nt_pc with_pc nt_rx nt_name]. rewrite ?ntable_at, nset_at.
    rewrite sgo by done. unfold nstep at 1. rewrite lookup_at by done. cbn [nt_pc with_pc nt_rx nt_name].
    match goal with |- context [n_objs ?x !! ?y] => change (n_objs x !! y) with ((O ++ [NObj m None ∅ false]) !! length O) end.
    rewrite lookup_app_r, Nat.sub_diag by done. cbn [lookup list_lookup mbind option_bind no_parent]. rewrite (bool_decide_true (None = None)), andb_true_r by done.
    case_decide as Hm; [rewrite bool_decide_true by done|rewrite bool_decide_false by done]; rewrite ?nemit_at, nset_at; by apply sstop.
  Qed.
  (** CreateChild. *)
  Lemma set_child T O C E l i m p (t : nthread) k fuel : i < length l → nt_name t = m → nt_pc t = PAlloc (Some p) k →
    settle (4 + fuel) (at_pc T O C E l i t) i = settle fuel (child_state T O C E l i m p (with_pc t (if k then PGot (length O) else POf))) i.
  Proof.
    intros Hi Hm Ht. change (4 + fuel) with (S (S (S (S fuel)))).
    rewrite sgo by (done || by rewrite Ht). unfold nstep at 1. rewrite lookup_at by done. rewrite Ht. cbn [nt_pc nt_client nt_name with_pc].
    rewrite Hm, ?nobjs_at, nset_at.
    rewrite sgo by done. unfold nstep at 1. rewrite lookup_at by done. cbn [nt_pc with_pc nt_rx nt_name]. rewrite ?nchildren_at, nset_at.
    rewrite sgo by done. unfold nstep at 1. rewrite lookup_at by done. cbn [nt_pc with_pc nt_rx nt_name]. rewrite Hm, ?ntable_at, nset_at.
    rewrite sgo by done. unfold nstep at 1. rewrite lookup_at by done. cbn [nt_pc with_pc nt_rx nt_name]. rewrite Hm.
    match goal with |- context [n_objs ?x !! ?y] => change (n_objs x !! y) with ((O ++ [NObj m (Some p) ∅ false]) !! length O) end.
    rewrite lookup_app_r, Nat.sub_diag by done. cbn [lookup list_lookup mbind option_bind no_parent]. rewrite (bool_decide_false (Some p = None)), andb_false_r by done.
    rewrite ?nemit_at, nset_at. done.
  Qed.
  Lemma set_of_child T O C E l i m fn p : i < length l → T !! m = None →
    settle 8 (nstep cl (at_pc T O C E l i (NThread m None fn (Some p) PStart)) i) i = child_state T O C E l i m p (NThread m None fn (Some p) (PGot (length O))).
  Proof.
    intros Hi HT. unfold nstep at 1. rewrite lookup_at by done. cbn [nt_pc nt_client nt_name].
    change (n_table (at_pc T O C E l i (NThread m None fn (Some p) PStart))) with T. rewrite HT, nset_at.
    rewrite (set_child T O C E l i m p _ true 4) by done. by apply sstop.
  Qed.
  (** A client that connects. *)
  Lemma set_enter T O C E l i m c fn rx o : i < length l → T !! m = Some o →
    settle 8 (nstep cl (at_pc T O C E l i (NThread m (Some c) fn rx PStart)) i) i = at_pc T O C E l i (NThread m (Some c) fn rx (PGot o)).
  Proof.
    intros Hi HT. unfold nstep at 1. rewrite lookup_at by done. cbn [nt_pc nt_client nt_name].
    change (n_table (at_pc T O C E l i (NThread m (Some c) fn rx PStart))) with T. rewrite HT, nset_at.
    rewrite sgo by done. unfold nstep at 1. rewrite lookup_at by done. cbn [nt_pc nt_client nt_name with_pc].
    match goal with |- context [n_table ?x !! m] => change (n_table x) with T end. rewrite HT, nset_at. by apply sstop.
  Qed.
  Lemma set_deny T O C E l i m c rx : i < length l → T !! m = None →
    settle 8 (nstep cl (at_pc T O C E l i (NThread m (Some c) None rx PStart)) i) i = at_pc T O C E l i (NThread m (Some c) None rx PDenied).
  Proof.
    intros Hi HT. unfold nstep at 1. rewrite lookup_at by done. cbn [nt_pc nt_client nt_name].
    change (n_table (at_pc T O C E l i (NThread m (Some c) None rx PStart))) with T. rewrite HT, nset_at.
    rewrite sgo by done. unfold nstep at 1. rewrite lookup_at by done. cbn [nt_pc nt_client nt_name with_pc nt_fn]. rewrite nset_at. by apply sstop.
  Qed.
  Lemma set_enter_child T O C E l i m c p rx : i < length l → T !! m = None →
    settle 8 (nstep cl (at_pc T O C E l i (NThread m (Some c) (Some p) rx PStart)) i) i = child_state T O C E l i m p (NThread m (Some c) (Some p) rx (PGot (length O))).
  Proof.
    intros Hi HT. unfold nstep at 1. rewrite lookup_at by done. cbn [nt_pc nt_client nt_name].
    change (n_table (at_pc T O C E l i (NThread m (Some c) (Some p) rx PStart))) with T. rewrite HT, nset_at.
    rewrite sgo by done. unfold nstep at 1. rewrite lookup_at by done. cbn [nt_pc nt_client nt_name with_pc nt_fn]. rewrite nset_at.
    rewrite sgo by done. unfold nstep at 1. rewrite lookup_at by done. cbn [nt_pc nt_client nt_name with_pc nt_fn].
    match goal with |- context [n_table ?x !! m] => change (n_table x) with T end. rewrite HT, nset_at.
    rewrite (set_child T O C E l i m p _ false 2) by done. unfold child_state.
    rewrite sgo by done. unfold nstep at 1. rewrite lookup_at by done. cbn [nt_pc nt_client nt_name with_pc nt_fn].
    match goal with |- context [n_table ?x !! m] => change (n_table x) with (<[m := length O]> T) end. rewrite lookup_insert, nset_at. by apply sstop.
  Qed.
  (** A client admitted. *)
  Lemma set_admit T O C E l i t o id : i < length l → nt_client t = Some (id, true) → nt_pc t = PGot o →
    settle 8 (nstep cl (at_pc T O C E l i t) i) i = at_pc T (alter (nsocks (λ x, {[id]} ∪ x)) o O) C E l i (with_pc t (PIn o)).
  Proof.
    intros Hi Hc Hp. unfold nstep. rewrite lookup_at by done. rewrite Hp, Hc. rewrite ?nobjs_at, nset_at. by apply sstop.
  Qed.
  (** A client that leaves, or is refused. *)
  Lemma set_leave T O C E l i t o id b x : i < length l → nt_client t = Some (id, b) → nt_pc t = PIn o ∨ b = false ∧ nt_pc t = PGot o → O !! o = Some x →
    ∃ O', settle 8 (nstep cl (at_pc T O C E l i t) i) i =
      match reaped cl o id x with
      | Some p => at_pc (delete (nt_name t) T) O' (<[p := default ∅ (C !! p) ∖ {[o]}]> C) E l i (with_pc t PEnd)
      | None => at_pc T O' C E l i (with_pc t PEnd)
      end ∧ obj_view <$> O' = obj_view <$> alter (nsocks (λ x, x ∖ {[id]})) o O.
  Proof.
    intros Hi Hc Hp Ho.
    assert (nstep cl (at_pc T O C E l i t) i = at_pc T O C E l i (with_pc t (PRemove o))) as ->.
    { unfold nstep. rewrite lookup_at by done. destruct Hp as [-> |[-> ->]]; [|rewrite Hc]; apply nset_at. }
    rewrite sgo by done. unfold nstep at 1. rewrite lookup_at by done. cbn [nt_pc nt_client nt_name with_pc]. rewrite Hc, nobjs_at, nset_at.
    set (O1 := alter (nsocks (λ x, x ∖ {[id]})) o O) in *.
    assert (O1 !! o = Some (nsocks (λ x, x ∖ {[id]}) x)) as HO1 by (unfold O1; by rewrite list_lookup_alter, Ho).
    rewrite sgo by done. unfold nstep at 1. rewrite lookup_at by done. cbn [nt_pc nt_client nt_name with_pc].
    match goal with |- context [n_objs ?x !! o] => change (n_objs x) with O1 end. rewrite HO1. cbn [no_parent nsocks no_socks].
    unfold reaped. destruct (no_parent x) as [p|] eqn:Ep.
    - rewrite (bool_decide_true (is_Some (Some p))), andb_true_r by eauto. destruct (cl && bool_decide (no_socks x ∖ {[id]} = ∅)) eqn:Ecl.
      + exists (alter nclose o O1). split.
        * rewrite nset_at. rewrite sgo by done. unfold nstep at 1. rewrite lookup_at by done. cbn [nt_pc nt_client nt_name with_pc]. rewrite nobjs_at, nset_at.
          rewrite sgo by done. unfold nstep at 1. rewrite lookup_at by done. cbn [nt_pc nt_client nt_name with_pc]. rewrite ntable_at, nset_at.
          rewrite sgo by done. unfold nstep at 1. rewrite lookup_at by done. cbn [nt_pc nt_client nt_name with_pc].
          match goal with |- context [n_objs ?x !! o] => change (n_objs x) with (alter nclose o O1) end. rewrite list_lookup_alter, HO1. cbn [fmap option_fmap option_map mbind option_bind nclose nsocks no_parent]. rewrite Ep.
          rewrite nchildren_at, nset_at. by apply sstop.
        * apply list_eq. intros j. rewrite !list_lookup_fmap, alter_lookup. destruct (decide (j = o)); [|done]. by destruct (O1 !! j).
      + exists O1. split; [|done]. rewrite nset_at. by apply sstop.
    - exists O1. split; [|done]. rewrite (bool_decide_false (is_Some None)), andb_false_r by (by intros []). cbn [andb]. rewrite nset_at.
      destruct (cl && _); by apply sstop.
  Qed.
End settle.

Section back.
  Context (csr skip cl : bool).
  Notation sstep := (step csr skip cl).
  Notation srun := (run csr skip cl).
  (** ** Agreement after goroutine [i] went on *)
  Lemma agree_go names f s n i t : agree names f s n → n_threads n !! i = Some t → engaged t →
    ∃ k a, c_socks s.1 !! k = Some a ∧ nt_name t = name_of s.1 (sk_nsp a) ∧ stands a (f k) t ∧
      ∀ (s' : sys) (h : sock → sock) pc T O C E, c_socks s'.1 = alter h k (c_socks s.1) → (∀ c, sk_nsp (h c) = sk_nsp c) → (∀ m, name_of s'.1 m = name_of s.1 m) →
        stands (h a) (f k) (with_pc t pc) → T = c_reg s'.1 → obj_view <$> O = nsp_view <$> c_nsps s'.1 → (∀ p, default ∅ (C !! p) = kids s'.1 p) → E = announced s'.2 →
        agree names f s' (at_pc T O C E (n_threads n) i (with_pc t pc)).
  Proof.
    intros [A1 A2 A3 A4 A5 (g & G1 & G2 & G3 & G4)] Ht Hen.
    pose proof (proj1 (G3 i t Ht) Hen) as (k & Hi)%elem_of_list_lookup.
    destruct (lookup_lt_is_Some_2 (c_socks s.1) k) as [a Hk]; [rewrite <- G2; by eapply lookup_lt_Some|].
    destruct (G4 k a i Hk Hi) as (t' & Ht' & Hm & Hs). rewrite Ht in Ht'. injection Ht' as <-.
    exists k, a. split; [done|]. split; [done|]. split; [done|].
    intros s' h pc T O C E Es Hh Hnm Hs' -> HO HC ->. split; try done; cbn [n_threads at_pc].
    - rewrite asked_insert; [done|done|]. apply Hen.
    - exists g. split; [done|]. split; [by rewrite Es, alter_length|]. split.
      + intros j u. intros [(<- & <- & _)|[_ Hu]]%list_lookup_insert_Some; [|by apply G3]. split; [intros _|intros _; by eapply stands_engaged]. by apply (G3 i t Ht).
      + intros j c jj. rewrite Es, alter_lookup. destruct (decide (j = k)) as [->|Hjk].
        * intros (c0 & Hc0 & ->)%fmap_Some Hj. rewrite Hk in Hc0. injection Hc0 as <-. rewrite Hi in Hj. injection Hj as <-.
          eexists. split; [apply list_lookup_insert; by eapply lookup_lt_Some|]. split; [by rewrite Hnm, Hh|done].
        * intros Hc Hj. destruct (G4 j c jj Hc Hj) as (u & Hu & Hum & Hus). exists u. split.
          -- rewrite list_lookup_insert_ne; [done|]. intros ->. apply Hjk. by eapply NoDup_lookup.
          -- split; [by rewrite Hnm|done].
  Qed.
  Lemma asked_at l i t t' : l !! i = Some t → asked [t] = [] → asked (<[i := t']> l) ≡ₚ asked l ++ asked [t'].
  Proof.
    intros H H0. rewrite insert_take_drop by (by eapply lookup_lt_Some). rewrite <- (take_drop_middle l i t H) at 3.
    change (t :: skipn (S i) l) with ([t] ++ skipn (S i) l). change (t' :: skipn (S i) l) with ([t'] ++ skipn (S i) l). unfold asked in *. rewrite !omap_app, H0.
    rewrite (Permutation_app_comm (omap _ [t'])). rewrite <- !app_assoc. done.
  Qed.
  (** [t] had not begun; it has no socket afterwards. *)
  Lemma agree_ask_at names f s s' n i t pc T O C E : agree names f s n → n_threads n !! i = Some t → nt_pc t = PStart →
    (nt_client t = None ∧ resting pc = true ∧ pc ≠ PStart ∨ is_Some (nt_client t) ∧ pc = PDenied) → 
    (∀ j, j < length (c_nsps s.1) → name_of s'.1 j = name_of s.1 j) → invA s.1 → c_socks s'.1 = c_socks s.1 →
    T = c_reg s'.1 → obj_view <$> O = nsp_view <$> c_nsps s'.1 → (∀ p, default ∅ (C !! p) = kids s'.1 p) → E = announced s'.2 →
    agree (names ++ asked [with_pc t pc]) f s' (at_pc T O C E (n_threads n) i (with_pc t pc)).
  Proof.
    intros [A1 A2 A3 A4 A5 (g & G1 & G2 & G3 & G4)] Ht Hp Hpc Hnm A Es HT HO HC HE.
    assert (¬ engaged t) as Hne by (intros (_ & ? & _); done).
    assert (¬ engaged (with_pc t pc)) as Hne'.
    { intros (H1 & H2 & H3). cbn in *. destruct Hpc as [(Hc & _)|[_ ?]]; [|done]. rewrite Hc in H1. by destruct H1. }
    split; try done; cbn.
    - rewrite asked_at; [by rewrite A5|done|]. cbn. rewrite Hp. by destruct (nt_client t).
    - exists g. rewrite Es. split; [done|]. split; [done|]. split.
      + intros j u. intros [(<- & <- & _)|[_ Hu]]%list_lookup_insert_Some; [|by apply G3]. split; [done|]. intros Hg. by apply (G3 i t Ht) in Hg.
      + intros k a j Hk Hj. destruct (G4 k a j Hk Hj) as (u & Hu & Hm & Hst). exists u. split.
        * rewrite list_lookup_insert_ne; [done|]. intros ->. rewrite Ht in Hu. injection Hu as <-. apply Hne. by eapply stands_engaged.
        * split; [|done]. rewrite Hnm; [done|]. apply (ia_wf _ A _ _ Hk).
  Qed.
  (** [t] had not begun; it is the client of the new socket. *)
  Lemma agree_client_at names f s s' n i t a T O C E b : agree names f s n → n_threads n !! i = Some t → nt_pc t = PStart → nt_client t = Some (sk_id a, b) →
    (∀ j, j < length (c_nsps s.1) → name_of s'.1 j = name_of s.1 j) → invA s.1 →
    c_socks s'.1 = c_socks s.1 ++ [a] → name_of s'.1 (sk_nsp a) = nt_name t → sk_connected a = false → sk_can_join a = true →
    T = c_reg s'.1 → obj_view <$> O = nsp_view <$> c_nsps s'.1 → (∀ p, default ∅ (C !! p) = kids s'.1 p) → E = announced s'.2 →
    agree names (with_flag f (length (c_socks s.1)) b) s' (at_pc T O C E (n_threads n) i (with_pc t (PGot (sk_nsp a)))).
  Proof.
    intros [A1 A2 A3 A4 A5 (g & G1 & G2 & G3 & G4)] Ht Hp Hcl Hnm A Es Em Ec Ej HT HO HC HE.
    assert (¬ engaged t) as Hne by (intros (_ & ? & _); done).
    assert (engaged (with_pc t (PGot (sk_nsp a)))) as Hen by (split; cbn; rewrite ?Hcl; eauto).
    assert (i ∉ g) as Hig by (intros Hg; by apply (G3 i t Ht) in Hg).
    split; try done; cbn.
    - rewrite asked_insert; [done|done|]. rewrite Hcl. eauto.
    - exists (g ++ [i]). rewrite Es. split; [|split; [|split]].
      + apply NoDup_app. split; [done|]. split; [|apply NoDup_singleton]. by intros j Hj ->%elem_of_list_singleton.
      + rewrite !app_length. cbn. lia.
      + intros j u. rewrite elem_of_app, elem_of_list_singleton. intros [(<- & <- & _)|[Hji Hu]]%list_lookup_insert_Some.
        * split; auto.
        * rewrite (G3 j u Hu). split; [by left|]. intros [?|?]; congruence.
      + intros k c j [Hk|[Hge Hk]]%lookup_app_Some Hj.
        * pose proof (lookup_lt_Some _ _ _ Hk) as Hlt. rewrite lookup_app_l in Hj by (by rewrite G2). destruct (G4 k c j Hk Hj) as (u & Hu & Hm & Hst). exists u. split.
          -- rewrite list_lookup_insert_ne; [done|]. intros ->. apply Hig. by eapply elem_of_list_lookup_2.
          -- split; [rewrite Hnm; [done|]; apply (ia_wf _ A _ _ Hk)|]. unfold with_flag. rewrite decide_False by lia. done.
        * apply list_lookup_singleton_Some in Hk as [H0 <-]. assert (k = length (c_socks s.1)) as -> by lia.
          rewrite <- G2, lookup_app_r, Nat.sub_diag in Hj by done. injection Hj as <-.
          eexists. split; [apply list_lookup_insert; by eapply lookup_lt_Some|]. split; [by symmetry|]. unfold stands, with_flag. rewrite Ec, Ej, decide_True by done. done.
  Qed.

  (** ** The server asks parent [p] first *)
  Definition first (p : nat) (l : list nat) : list nat := match list_remove p l with Some k => p :: k | None => l end.
  Definition os_first (o : option nat) : sords :=
    SOrds orders_std (λ _, ord_std) ord_std (λ _, ord_std) (λ l, match o with Some p => first p l | None => l end) elements.
  Lemma os_first_ok o : sords_ok (os_first o).
  Proof.
    destruct os1_ok as (H1 & H2 & H3 & H4 & _ & H6). split; [done|]. split; [done|]. split; [done|]. split; [done|]. split; [|done].
    intros l. cbn. destruct o as [p|]; [|done]. unfold first. destruct (list_remove p l) eqn:E; [|done]. symmetry. by apply list_remove_Some.
  Qed.
  Lemma first_in p l : p ∈ l → ∃ k, first p l = p :: k.
  Proof.
    intros H. unfold first. assert (is_Some (list_remove p l)) as [k ->]; [|eauto]. induction H as [p l|p y l H' IH]; cbn; [rewrite decide_True by done; eauto|].
    destruct (decide _); [eauto|]. destruct IH as [k ->]. eauto.
  Qed.
  Definition matched (ms : list matcher) (x : core) : Prop := pa_match <$> c_parents x = ms.
  Lemma matched_lt ms x p q : matched ms x → ms !! p = Some q → p ∈ seq 0 (length (c_parents x)) ∧ ∃ pa, c_parents x !! p = Some pa ∧ pa_match pa = q.
  Proof.
    intros <- Hp. rewrite list_lookup_fmap in Hp. apply fmap_Some in Hp as (pa & Hp & ->). split; [|eauto]. apply elem_of_seq. apply lookup_lt_Some in Hp. lia.
  Qed.
  Lemma first_match_some ms x m p : matched ms x → matching ms m p → first_match (os_first (Some p)) x m = Some p.
  Proof.
    intros Hms (r & Hp & Hr). destruct (matched_lt _ _ _ _ Hms Hp) as (Hin & pa & Hpa & Hm). unfold first_match. cbn [so_parents os_first].
    destruct (first_in p _ Hin) as [k ->]. rewrite filter_cons_True; [done|]. unfold regex_matches. by rewrite Hpa, Hm, Hr.
  Qed.
  Lemma first_match_none ms x m : matched ms x → (∀ p, ¬ matching ms m p) → first_match (os_first None) x m = None.
  Proof.
    intros Hms Hno. unfold first_match. cbn [so_parents os_first]. destruct (filter _ _) as [|p l] eqn:E; [done|]. exfalso.
    assert (p ∈ filter (λ p, regex_matches x m p) (seq 0 (length (c_parents x)))) as Hin by (rewrite E; left).
    apply elem_of_list_filter in Hin as [Hin _]. apply (Hno p). unfold regex_matches in Hin. destruct (c_parents x !! p) as [pa|] eqn:Ep; [|done].
    destruct (pa_match pa) as [r|] eqn:Em; [|done]. exists r. split; [|by apply Is_true_eq_true]. rewrite <- Hms, list_lookup_fmap, Ep. cbn. by rewrite Em.
  Qed.
  Lemma check_some ms x m p : matched ms x → matching ms m p ∨ ms !! p = Some MFun →
    check_loop x (λ _, Some true) m (so_parents (os_first (Some p)) (seq 0 (length (c_parents x)))) = Some p.
  Proof.
    intros Hms Hp. cbn [so_parents os_first].
    assert (∃ q, ms !! p = Some q ∧ (q = MFun ∨ ∃ r, q = MRegex r ∧ r m = true)) as (q & Hq & Hr) by (destruct Hp as [(r & ? & ?)|?]; eexists; (split; [done|]); eauto).
    destruct (matched_lt _ _ _ _ Hms Hq) as (Hin & pa & Hpa & Hm). destruct (first_in p _ Hin) as [k ->]. cbn. unfold answer. rewrite Hpa, Hm. destruct Hr as [->|(r & -> & ->)]; done.
  Qed.
  Lemma check_none ms x m l : matched ms x → (∀ p, ¬ matching ms m p) → check_loop x (λ _, Some false) m l = None.
  Proof.
    intros Hms Hno. induction l as [|p l IH]; [done|]. cbn. destruct (answer x _ m p) as [[]|] eqn:E; [|done|done]. exfalso. apply (Hno p).
    unfold answer in E. destruct (c_parents x !! p) as [pa|] eqn:Ep; [|done]. destruct (pa_match pa) as [r|] eqn:Em; [|done]. injection E as E. exists r. split; [|done].
    rewrite <- Hms, list_lookup_fmap, Ep. cbn. by rewrite Em.
  Qed.

  (** ** What is reached *)
  Definition all_open (x : core) : Prop := ∀ c k, c_clients x !! c = Some k → cl_open k = true.
  Definition fine (ms : list matcher) (t : nthread) : Prop :=
    match nt_pc t with PStart => plausible ms t | PIn _ => is_Some (nt_client t) | _ => True end.
  Definition reached (ms : list matcher) (n : nstate) : Prop :=
    at_rest n ∧ (∀ i t, n_threads n !! i = Some t → fine ms t) ∧
    ∃ h f, env_ok csr skip cl h ∧ slashed h ∧ agree (asks h) f (srun h) n ∧ matched ms (srun h).1 ∧ all_open (srun h).1.
  Lemma asks_snoc h e : asks (h ++ [e]) = asks h ++ ask e.
  Proof. unfold asks, ask. rewrite omap_app. cbn. f_equal. f_equal. destruct e as [os []]; done. Qed.
  Lemma slashed_snoc h e : slashed h → slashed [e] → slashed (h ++ [e]).
  Proof. intros H1 H2 e' [He|He]%elem_of_app; [by apply H1|by apply H2]. Qed.
  Lemma run_invA h : env_ok csr skip cl h → invA (srun h).1.
  Proof. intros He. apply (run_inv csr skip cl (λ _, True) I (λ _ _ _ _ _, I) h He). Qed.
  Lemma rest_at T O C E n i t : at_rest n → resting (nt_pc t) = true → at_rest (at_pc T O C E (n_threads n) i t).
  Proof. intros. by apply Forall_insert. Qed.
  Lemma plaus_at (ms : list matcher) T O C E n i t : (∀ i t, n_threads n !! i = Some t → fine ms t) → fine ms t →
    ∀ j u, n_threads (at_pc T O C E (n_threads n) i t) !! j = Some u → fine ms u.
  Proof. intros H Ht j u. cbn. intros [(<- & <- & _)|[_ Hu]]%list_lookup_insert_Some; [done|]. by apply (H j). Qed.
  Lemma at_self n i t : n_threads n !! i = Some t → at_pc (n_table n) (n_objs n) (n_children n) (n_events n) (n_threads n) i t = n.
  Proof. intros H. unfold at_pc. rewrite list_insert_id by done. by destruct n. Qed.

  (** Of *)
  Lemma back_of ms n i m fn rx : reached ms n → n_threads n !! i = Some (NThread m None fn rx PStart) → reached ms (settle cl 8 (nstep cl n i) i).
  Proof.
    intros (Hr & Hpl & h & f & He & Hsl & Ha & Hms & Hop) Ht. pose proof (run_invA h He) as A. pose proof (lookup_lt_Some _ _ _ Ht) as Hi.
    destruct (Hpl _ _ Ht) as (Hm & Hrx & _). cbn in Hm, Hrx. pose proof (len_objs _ _ _ _ Ha) as Hl. pose proof Ha as [A1 A2 A3 A4 _ _].
    assert (op_env (srun h) (os_first rx, OOf m None)) as Ho by (split; [apply os_first_ok|done]).
    assert (slashed [(os_first rx, OOf m None)]) as Hs by (by intros e ->%elem_of_list_singleton).
    rewrite <- (at_self n i _ Ht) at 1.
    assert (∀ T O C E o, at_rest (at_pc T O C E (n_threads n) i (NThread m None fn rx (PGot o))) →
      agree (asks h ++ [m]) f (of_name (os_first rx) m None (srun h)) (at_pc T O C E (n_threads n) i (NThread m None fn rx (PGot o))) →
      matched ms (of_name (os_first rx) m None (srun h)).1 → reached ms (at_pc T O C E (n_threads n) i (NThread m None fn rx (PGot o)))) as Hgo.
    { intros T O C E o H1 H2 H3. split; [done|]. split; [by apply plaus_at|]. exists (h ++ [(os_first rx, OOf m None)]), f. rewrite asks_snoc, run_snoc. cbn [ask snd step fst].
      split; [by apply env_snoc|]. split; [by apply slashed_snoc|]. unfold ask. cbn [snd]. rewrite Hm. split; [done|]. split; [done|].
      intros c k. destruct (of_name_frame (os_first rx) m None (srun h)) as [-> _]. apply Hop. }
    assert (∀ o, asked [with_pc (NThread m None fn rx PStart) (PGot o)] = [m]) as Hasked by done.
    destruct (n_table n !! m) as [o|] eqn:ET.
    - rewrite set_of_found with (o := o) by done.
      assert (of_name (os_first rx) m None (srun h) = srun h) as Ef by (unfold of_name; by rewrite Hm, <- A1, ET).
      apply Hgo; [by apply rest_at| |by rewrite Ef]. rewrite Ef. eapply (agree_ask_at _ f (srun h) _ _ _ (NThread m None fn rx PStart) (PGot o)); try done. by left.
    - destruct rx as [p|].
      + assert (of_name (os_first (Some p)) m None (srun h) = create_child p m (srun h)) as Ef.
        { unfold of_name. rewrite Hm, <- A1, ET. by rewrite (first_match_some ms). }
        destruct Hrx as (r & Hp & Hr0). destruct (matched_lt _ _ _ _ Hms Hp) as (_ & pa & Hpa & _).
        pose proof (create_child_of p m (srun h) pa Hpa) as Hc.
        rewrite set_of_child by done. apply Hgo; [by apply rest_at| |].
        * rewrite Ef. eapply (agree_ask_at _ f (srun h) _ _ _ (NThread m None fn (Some p) PStart) (PGot _)); [done|done|done|by left|by eapply child_names|done|apply create_child_socks| | |by eapply child_kids|].
          -- destruct Hc as (np & q & _ & E1 & _). by rewrite E1, A1, Hl.
          -- destruct Hc as (np & q & Hv & _ & E2 & _). rewrite E2, !fmap_app, A2. cbn. by rewrite Hv.
          -- destruct Hc as (np & q & _ & _ & _ & _ & _ & E4). by rewrite E4, A4, Hl.
        * rewrite Ef. unfold matched, create_child. rewrite Hpa. cbn. rewrite <- Hms. apply list_eq. intros j. rewrite !list_lookup_fmap, alter_lookup. destruct (decide (j = p)); [|done]. by destruct (c_parents (srun h).1 !! j).
      + set (np := Nspc m None empty_registry ∅ [] []).
        assert (of_name (os_first None) m None (srun h) = if decide (m = "/") then new_nsp np (srun h) else log (ENewNsp (length (c_nsps (srun h).1))) (new_nsp np (srun h))) as Ef.
        { unfold of_name. rewrite Hm, <- A1, ET. rewrite (first_match_none ms) by done. done. }
        rewrite set_of_new by done. apply Hgo; [by apply rest_at| |].
        * rewrite Ef. eapply (agree_ask_at _ f (srun h) _ _ _ (NThread m None fn None PStart) (PGot _)); [done|done|done|by left| |done| | | | |].
          -- eapply app_names. by destruct (decide (m = "/")).
          -- by destruct (decide (m = "/")).
          -- destruct (decide (m = "/")); cbn; by rewrite A1, Hl.
          -- replace (c_nsps _) with (c_nsps (srun h).1 ++ [np]) by (by destruct (decide (m = "/"))). rewrite !fmap_app, A2. cbn. unfold nsp_view. cbn. by rewrite dom_empty_L.
          -- intros p. replace (kids _ p) with (kids (srun h).1 p) by (by destruct (decide (m = "/"))). apply A3.
          -- rewrite A4, Hl. destruct (decide (m = "/")); [done|]. cbn. by rewrite announced_app.
        * rewrite Ef. by destruct (decide (m = "/")).
  Qed.

  (** A client: it opens a connection and sends a connect packet *)
  Definition opened (s : sys) : sys := on_core (λ y, set_clients (c_clients y ++ [Client "" false true ∅ ∅ true]) y) s.
  Definition newcomer (id : string) (n : nat) (s : sys) : sys :=
    on_core (λ y, set_socks (c_socks y ++ [Sock id n (length (c_clients s.1)) false true false]) y) (opened s).
  Lemma add_new id n s s1 : c_clients s1.1 = c_clients (opened s).1 →
    add csr skip (length (c_clients s.1)) n (Arrival id None) s1 = on_core (λ y, set_socks (c_socks y ++ [Sock id n (length (c_clients s.1)) false true false]) y) s1.
  Proof.
    intros E. unfold add, create_socket. cbn [x_prev x_id]. rewrite (bool_decide_false (is_Some None)), andb_false_r, andb_false_r by (by intros []). cbn [andb].
    replace (if csr then None else None) with (@None (sid * list room * list (list value))) by (by destruct csr).
    replace (c_clients s1.1 !! length (c_clients s.1)) with (Some (Client "" false true ∅ ∅ true)); [done|].
    rewrite E. cbn. by rewrite lookup_app_r, Nat.sub_diag.
  Qed.
  Lemma back_arrive h id m os ans : env_ok csr skip cl h → slashed h → norm m = m → sords_ok os →
    ∃ h', srun h' = connect csr skip os (length (c_clients (srun h).1)) m ans (Arrival id None) (opened (srun h)) ∧ env_ok csr skip cl h' ∧ slashed h' ∧ asks h' = asks h.
  Proof.
    intros He Hsl Hm Hos.
    exists ((h ++ [(os, OOpen "" false ans (Arrival "" None))]) ++ [(os, OPacket (length (c_clients (srun h).1)) (Packet CONNECT m [] None) ans (Arrival id None))]).
    split; [|split; [|split]].
    - rewrite !run_snoc. cbn [step fst snd]. fold (opened (srun h)).
      assert (c_clients (opened (srun h)).1 !! length (c_clients (srun h).1) = Some (Client "" false true ∅ ∅ true)) as El by (cbn; by rewrite lookup_app_r, Nat.sub_diag).
      unfold is_open. rewrite El. cbn [cl_open]. unfold ondecoded, cnsps_of. rewrite El. cbn [cl_nsps p_nsp p_type]. rewrite lookup_empty. by rewrite decide_True by done.
    - apply env_snoc. split; [apply env_snoc; split; [done|]|]; by split.
    - apply slashed_snoc; [apply slashed_snoc; [done|]|]; by intros e ->%elem_of_list_singleton.
    - by rewrite !asks_snoc, !app_nil_r.
  Qed.
  Lemma open_app s x' : all_open s.1 → c_clients x' = c_clients (opened s).1 → all_open x'.
  Proof.
    intros H E c k. rewrite E. cbn. intros [?|[_ Hk]]%lookup_app_Some; [by eapply H|]. by apply list_lookup_singleton_Some in Hk as [_ <-].
  Qed.
  Lemma matched_child ms p m s : matched ms s.1 → matched ms (create_child p m s).1.
  Proof.
    intros <-. unfold matched, create_child. destruct (c_parents s.1 !! p); [|done]. cbn. apply list_eq. intros j. rewrite !list_lookup_fmap, alter_lookup.
    destruct (decide (j = p)); [|done]. by destruct (c_parents s.1 !! j).
  Qed.
  Lemma back_client ms n i m id b fn rx : reached ms n → n_threads n !! i = Some (NThread m (Some (id, b)) fn rx PStart) → reached ms (settle cl 8 (nstep cl n i) i).
  Proof.
    intros (Hr & Hpl & h & f & He & Hsl & Ha & Hms & Hop) Ht. pose proof (run_invA h He) as A. pose proof (lookup_lt_Some _ _ _ Ht) as Hi.
    destruct (Hpl _ _ Ht) as (Hm & _ & Hfn). cbn in Hm, Hfn. pose proof (len_objs _ _ _ _ Ha) as Hl. pose proof Ha as [A1 A2 A3 A4 _ _].
    set (ans := λ _ : nat, if fn then Some true else Some false : option bool).
    destruct (back_arrive h id m (os_first fn) ans He Hsl Hm (os_first_ok fn)) as (h' & Er & He' & Hsl' & Eas).
    set (s := srun h) in *. set (c := length (c_clients s.1)) in *.
    rewrite <- (at_self n i _ Ht) at 1. unfold connect in Er.
    assert (c_reg (opened s).1 = n_table n) as Ereg by (by rewrite A1). rewrite Ereg in Er.
    destruct (n_table n !! m) as [o|] eqn:ET.
    - rewrite set_enter with (o := o) by done. split; [by apply rest_at|]. split; [by apply plaus_at|].
      exists h', (with_flag f (length (c_socks s.1)) b). split; [done|]. split; [done|]. rewrite Eas.
      unfold client_do_connect in Er. replace (of_name (os_first fn) m None (opened s)) with (opened s) in Er by (unfold of_name; by rewrite Hm, Ereg, ET).
      rewrite Hm, Ereg, ET, (add_new id o s) in Er by done. rewrite Er. split; [|split; [done|by eapply open_app]].
      eapply (agree_client_at _ f s _ _ _ (NThread m (Some (id, b)) fn rx PStart) (Sock id o c false true false)); try done.
      cbn. rewrite A1 in ET. destruct (ia_name _ A _ _ ET) as (np & Hnp & <-). unfold name_of. cbn. by rewrite Hnp.
    - destruct fn as [p|].
      + assert (check_loop (opened s).1 ans m (so_parents (os_first (Some p)) (seq 0 (length (c_parents (opened s).1)))) = Some p) as Ec.
        { apply (check_some ms); done. }
        rewrite Ec in Er. unfold accept in Er. rewrite Ereg, ET in Er.
        assert (∃ pa, c_parents s.1 !! p = Some pa) as [pa Hpa].
        { destruct Hfn as [(r & Hq & _)|Hq]; destruct (matched_lt _ _ _ _ Hms Hq) as (_ & pa & ? & _); eauto. }
        pose proof (create_child_of p m (opened s) pa Hpa) as Hc.
        assert (c_reg (create_child p m (opened s)).1 !! m = Some (length (c_nsps s.1))) as Hrm by (unfold create_child; cbn; rewrite Hpa; cbn; apply lookup_insert).
        unfold client_do_connect in Er. replace (of_name (os_first (Some p)) m None (create_child p m (opened s))) with (create_child p m (opened s)) in Er by (unfold of_name; by rewrite Hm, Hrm).
        assert (c_clients (create_child p m (opened s)).1 = c_clients (opened s).1) as Ecl by (unfold create_child; cbn; by rewrite Hpa).
        rewrite Hm, Hrm, (add_new id _ s) in Er by done.
        assert (child_of p m s (srun h')) as Hch.
        { rewrite Er. destruct Hc as (np & q & ? & ? & ? & ? & ? & ?). exists np, q. split_and!; done. }
        rewrite set_enter_child by done. split; [by apply rest_at|]. split; [by apply plaus_at|].
        exists h', (with_flag f (length (c_socks s.1)) b). split; [done|]. split; [done|]. rewrite Eas. split; [|split; [|by rewrite Er; eapply open_app]].
        * rewrite Hl. eapply (agree_client_at _ f s _ _ _ (NThread m (Some (id, b)) (Some p) rx PStart) (Sock id (length (c_nsps s.1)) c false true false)); try done.
          -- by eapply child_names.
          -- rewrite Er. cbn. by rewrite create_child_socks.
          -- destruct Hch as (np & q & Hv & _ & E2 & _). cbn. rewrite name_view, E2, fmap_app, lookup_app_r, fmap_length, Nat.sub_diag by (by rewrite fmap_length). cbn [fmap list_fmap lookup list_lookup]. by rewrite Hv.
          -- destruct Hch as (np & q & _ & E1 & _). by rewrite E1, A1, ?Hl.
          -- destruct Hch as (np & q & Hv & _ & E2 & _). rewrite E2, !fmap_app, A2. cbn. by rewrite Hv.
          -- by eapply child_kids.
          -- destruct Hch as (np & q & _ & _ & _ & _ & _ & E4). by rewrite E4, A4, ?Hl.
        * rewrite Er. apply (matched_child ms p m (opened s)). done.
      + assert (check_loop (opened s).1 ans m (so_parents (os_first None) (seq 0 (length (c_parents (opened s).1)))) = None) as Ec by (by apply (check_none ms)).
        rewrite Ec in Er. assert (same_view (opened s) (srun h')) as (V1 & V2 & V3 & V4) by (rewrite Er; apply view_write).
        assert ((srun h').1 = (opened s).1) as E1 by (rewrite Er; unfold deny; by rewrite write_core).
        rewrite set_deny by done. split; [by apply rest_at|]. split; [by apply plaus_at|]. exists h', f. split; [done|]. split; [done|]. rewrite Eas.
        split; [|split; [by rewrite E1|rewrite E1; by eapply open_app]].
        rewrite <- (app_nil_r (asks h)). eapply (agree_ask_at _ f s _ _ _ (NThread m (Some (id, b)) None rx PStart) PDenied); try done; [right; eauto|..].
        * intros j _. by rewrite E1.
        * by rewrite E1.
        * by rewrite V1.
        * by rewrite V2.
        * intros p. rewrite V3. apply A3.
        * by rewrite V4.
  Qed.

  (** A client with a socket *)
  Lemma client_open k a x : invA x → all_open x → c_socks x !! k = Some a → is_open x (sk_client a) = true.
  Proof.
    intros A Hop Hk. destruct (ia_wf _ A _ _ Hk) as [_ Hlt]. apply lookup_lt_is_Some in Hlt as [c Hc]. unfold is_open. rewrite Hc. by eapply Hop.
  Qed.
  Lemma back_admit ms n i t id o : reached ms n → n_threads n !! i = Some t → nt_client t = Some (id, true) → nt_pc t = PGot o → reached ms (settle cl 8 (nstep cl n i) i).
  Proof.
    intros (Hr & Hpl & h & f & He & Hsl & Ha & Hms & Hop) Ht Hc Hp. pose proof (run_invA h He) as A. pose proof (lookup_lt_Some _ _ _ Ht) as Hi.
    destruct (agree_go _ _ _ _ _ _ Ha Ht) as (k & a & Hk & Hm & Hst & Hgo); [split; [rewrite Hc|rewrite Hp]; eauto|].
    pose proof Ha as [A1 A2 A3 A4 _ _]. rewrite <- (at_self n i _ Ht) at 1. rewrite (set_admit cl _ _ _ _ _ _ _ o id) by done.
    unfold stands in Hst. rewrite Hc, Hp in Hst. destruct (sk_connected a) eqn:Hcn; [by destruct Hst|]. destruct (sk_can_join a) eqn:Hj; [|by destruct Hst]. destruct Hst as [[= -> Hf] [= ->]].
    split; [by apply rest_at|]. split; [apply plaus_at; [done|]; cbn; rewrite Hc; eauto|]. exists (h ++ [(os1, OVerdict k None)]), f.
    split; [apply env_snoc; split; [done|]; split; [apply os1_ok|]; exists a; done|]. split; [apply slashed_snoc; [done|]; by intros e ->%elem_of_list_singleton|].
    rewrite asks_snoc, run_snoc, app_nil_r. cbn [step fst snd]. unfold verdict. rewrite Hk, (client_open k a) by done. rewrite (do_connect_eq k a) by (try done; by eapply client_open).
    split; [|split; [done|]].
    - apply (Hgo _ (sk_set true true)); try done.
      + by eapply name_alter.
      + rewrite (obj_alter _ _ _ (λ v, (v.1, {[sk_id a]} ∪ v.2))) by done. cbn.
        rewrite (view_alter _ _ _ (λ v, (v.1, {[sk_id a]} ∪ v.2))); [by rewrite A2|]. intros np0. unfold nsp_view. cbn. by rewrite dom_insert_L.
      + cbn. rewrite announced_app. cbn. by rewrite app_nil_r.
    - intros c y. cbn. rewrite alter_lookup. destruct (decide (c = sk_client a)); [|apply Hop]. intros (y0 & Hy & ->)%fmap_Some. cbn. by eapply Hop.
  Qed.
  Lemma back_leave ms h' f n i t k a os b : reached ms n → n_threads n !! i = Some t →
    (∃ h, env_ok csr skip cl h ∧ invA (srun h).1 ∧ agree (asks h) f (srun h) n ∧ asks h' = asks h ∧
      nt_client t = Some (sk_id a, b) ∧ (nt_pc t = PIn (sk_nsp a) ∨ b = false ∧ nt_pc t = PGot (sk_nsp a)) ∧ sk_can_join a = true ∧
      (∀ (s' : sys) (g : sock → sock) pc T O C E, c_socks s'.1 = alter g k (c_socks (srun h).1) → (∀ c, sk_nsp (g c) = sk_nsp c) → (∀ m, name_of s'.1 m = name_of (srun h).1 m) →
        stands (g a) (f k) (with_pc t pc) → T = c_reg s'.1 → obj_view <$> O = nsp_view <$> c_nsps s'.1 → (∀ p, default ∅ (C !! p) = kids s'.1 p) → E = announced s'.2 →
        agree (asks h) f s' (at_pc T O C E (n_threads n) i (with_pc t pc))) ∧
      c_socks (srun h).1 !! k = Some a ∧ nt_name t = name_of (srun h).1 (sk_nsp a) ∧ matched ms (srun h).1 ∧
      c_socks (srun h').1 = alter (sk_set false false) k (c_socks (srun h).1) ∧
      c_nsps (srun h').1 = alter (drop os (sk_id a)) (sk_nsp a) (c_nsps (srun h).1) ∧
      c_reg (srun h').1 = match reaps cl a (srun h).1 with Some (m, _) => delete m (c_reg (srun h).1) | None => c_reg (srun h).1 end ∧
      c_parents (srun h').1 = match reaps cl a (srun h).1 with Some (_, p) => alter (λ q, pa_set_children (pa_children q ∖ {[sk_nsp a]}) q) p (c_parents (srun h).1) | None => c_parents (srun h).1 end ∧
      announced (srun h').2 = announced (srun h).2) →
    env_ok csr skip cl h' → slashed h' → all_open (srun h').1 → reached ms (settle cl 8 (nstep cl n i) i).
  Proof.
    intros (Hr & Hpl & _) Ht (h & He & A & Ha & Eas & Hc & Hp & Hj & Hgo & Hk & Hm & Hms & E1 & E2 & E3 & E4 & E5) He' Hsl' Hop'.
    pose proof Ha as [A1 A2 A3 A4 _ _]. pose proof (lookup_lt_Some _ _ _ Ht) as Hi.
    destruct (ia_wf _ A _ _ Hk) as [Hlt _]. apply lookup_lt_is_Some in Hlt as [np Hnp].
    assert (∃ o, n_objs n !! sk_nsp a = Some o ∧ obj_view o = nsp_view np) as (o & Ho & Eo).
    { apply (f_equal (.!! sk_nsp a)) in A2. rewrite !list_lookup_fmap, Hnp in A2. cbn in A2. apply fmap_Some in A2 as (o & ? & ?). eauto. }
    injection Eo as Eo1 Eo2 Eo3. rewrite <- (at_self n i _ Ht) at 1.
    destruct (set_leave cl (n_table n) (n_objs n) (n_children n) (n_events n) (n_threads n) i t (sk_nsp a) (sk_id a) b o) as (O & Hrun & HO); [done..|].
    assert (reaps cl a (srun h).1 = (λ p, (nt_name t, p)) <$> reaped cl (sk_nsp a) (sk_id a) o) as Ereap.
    { unfold reaps, reaped. rewrite Hnp, Eo2, Eo3, Hm. unfold name_of. rewrite Hnp.
      replace (bool_decide (delete (sk_id a) (np_sockets np) = ∅)) with (bool_decide (dom (np_sockets np) ∖ {[sk_id a]} = ∅)).
      - destruct (np_parent np), (cl && _); done.
      - apply bool_decide_ext. rewrite <- dom_delete_L. apply dom_empty_iff_L. }
    replace (match reaped cl (sk_nsp a) (sk_id a) o with Some p => _ | None => _ end) with
      (at_pc (c_reg (srun h').1) O (match reaped cl (sk_nsp a) (sk_id a) o with Some p => <[p := default ∅ (n_children n !! p) ∖ {[sk_nsp a]}]> (n_children n) | None => n_children n end) (n_events n) (n_threads n) i (with_pc t PEnd)) in Hrun
      by (rewrite E3, Ereap, <- A1; by destruct (reaped cl (sk_nsp a) (sk_id a) o)).
    rewrite Hrun. split; [by apply rest_at|]. split; [by apply plaus_at|]. exists h', f. split; [done|]. split; [done|]. rewrite Eas.
    split; [|split; [|done]].
    - apply (Hgo _ (sk_set false false)); try done.
      + by eapply name_alter.
      + split; [cbn; by rewrite Hc|done].
      + rewrite HO, E2. rewrite (obj_alter _ _ _ (λ v, (v.1, v.2 ∖ {[sk_id a]}))) by done.
        rewrite (view_alter _ _ _ (λ v, (v.1, v.2 ∖ {[sk_id a]}))); [by rewrite A2|]. intros np0. unfold nsp_view. cbn. by rewrite dom_delete_L.
      + intros p. unfold kids. rewrite E4, Ereap. specialize (A3 p). unfold children in A3. destruct (reaped cl (sk_nsp a) (sk_id a) o) as [p'|]; cbn; [|done].
        rewrite alter_lookup. destruct (decide (p = p')) as [->|Hne].
        * rewrite lookup_insert. cbn. rewrite A3. unfold kids. destruct (c_parents (srun h).1 !! p'); [done|]. cbn. set_solver.
        * by rewrite lookup_insert_ne.
      + by rewrite E5.
    - unfold matched. rewrite E4. destruct (reaps cl a (srun h).1) as [[m' p]|]; [|done]. rewrite <- Hms. apply list_eq. intros j. rewrite !list_lookup_fmap, alter_lookup.
      destruct (decide (j = p)); [|done]. by destruct (c_parents (srun h).1 !! j).
  Qed.
  Lemma back_refuse ms n i t id o : reached ms n → n_threads n !! i = Some t → nt_client t = Some (id, false) → nt_pc t = PGot o → reached ms (settle cl 8 (nstep cl n i) i).
  Proof.
    intros Hre Ht Hc Hp. pose proof Hre as (Hr & Hpl & h & f & He & Hsl & Ha & Hms & Hop). pose proof (run_invA h He) as A.
    destruct (agree_go _ _ _ _ _ _ Ha Ht) as (k & a & Hk & Hm & Hst & Hgo); [split; [rewrite Hc|rewrite Hp]; eauto|].
    unfold stands in Hst. rewrite Hc, Hp in Hst. destruct (sk_connected a) eqn:Hcn; [by destruct Hst|]. destruct (sk_can_join a) eqn:Hj; [|by destruct Hst]. destruct Hst as [[= -> Hf] [= ->]].
    assert (srun (h ++ [(os1, OVerdict k (Some (VStr "")))]) = sock_packet k CONNECT_ERROR [VStr ""] (cleanup cl os1 k (srun h))) as Er.
    { rewrite run_snoc. cbn [step fst snd]. unfold verdict. by rewrite Hk, (client_open k a). }
    assert ((srun (h ++ [(os1, OVerdict k (Some (VStr "")))])).1 = (cleanup cl os1 k (srun h)).1) as Er1 by (rewrite Er; apply sock_packet_core).
    eapply (back_leave ms (h ++ [(os1, OVerdict k (Some (VStr "")))]) f n i t k a os1 false); [done|done| | | |].
    - exists h. rewrite Er1. split_and!; try done.
      + by rewrite asks_snoc, app_nil_r.
      + by right.
      + rewrite cleanup_socks. apply list_eq. intros j. rewrite !alter_lookup. destruct (decide (j = k)) as [->|]; [|done]. rewrite Hk. cbn. by rewrite Hcn.
      + by rewrite (cleanup_nsps cl os1 k a).
      + by rewrite (cleanup_reg cl os1 k a).
      + by rewrite (cleanup_parents cl os1 k a).
      + rewrite Er. destruct (view_packet k CONNECT_ERROR [VStr ""] (cleanup cl os1 k (srun h))) as (_ & _ & _ & ->). by rewrite cleanup_log.
    - apply env_snoc. split; [done|]. split; [apply os1_ok|]. exists a. done.
    - apply slashed_snoc; [done|]. by intros e ->%elem_of_list_singleton.
    - intros c y. rewrite Er1, cleanup_clients. apply Hop.
  Qed.
  Lemma back_disc ms n i t o : reached ms n → n_threads n !! i = Some t → is_Some (nt_client t) → nt_pc t = PIn o → reached ms (settle cl 8 (nstep cl n i) i).
  Proof.
    intros Hre Ht Hc Hp. pose proof Hre as (Hr & Hpl & h & f & He & Hsl & Ha & Hms & Hop). pose proof (run_invA h He) as A.
    destruct (agree_go _ _ _ _ _ _ Ha Ht) as (k & a & Hk & Hm & Hst & Hgo); [split; [done|rewrite Hp; eauto]|].
    unfold stands in Hst. rewrite Hp in Hst. destruct (sk_connected a) eqn:Hcn; [|destruct (sk_can_join a); by destruct Hst]. destruct Hst as [Hcl [= ->]].
    set (e := (os1, ODisconnect k false)).
    set (s1 := sock_packet k DISCONNECT [] (srun h)). assert (s1.1 = (srun h).1) as E1 by apply sock_packet_core.
    assert (srun (h ++ [e]) = onclose csr cl os1 "server namespace disconnect" k s1) as Er.
    { rewrite run_snoc. cbn [step fst snd e]. unfold disconnect_st, disconnect. by rewrite !Hk, !Hcn. }
    eapply (back_leave ms (h ++ [e]) f n i t k a os1 true); [done|done| | | |].
    - exists h. rewrite Er. split_and!; try done.
      + by rewrite asks_snoc, app_nil_r.
      + by left.
      + by eapply ia_live.
      + rewrite (onclose_socks csr cl os1 _ k a) by (by rewrite ?E1). by rewrite E1.
      + rewrite (onclose_nsps csr cl os1 _ k a) by (by rewrite ?E1). by rewrite E1.
      + rewrite (onclose_reg csr cl os1 _ k a) by (by rewrite ?E1). by rewrite E1.
      + rewrite (onclose_parents csr cl os1 _ k a) by (by rewrite ?E1). by rewrite E1.
      + rewrite (onclose_log csr cl os1 _ k a), !announced_app by (by rewrite ?E1). unfold close_logs.
        destruct (view_packet k DISCONNECT [] (srun h)) as (_ & _ & _ & V). fold s1 in V. rewrite V. cbn. destruct (csr && _); cbn; by rewrite app_nil_r.
    - apply env_snoc. split; [done|]. split; [apply os1_ok|done].
    - apply slashed_snoc; [done|]. by intros e' ->%elem_of_list_singleton.
    - intros c y. rewrite Er. intros (y0 & Hy & _ & _ & -> & _)%onclose_clients. rewrite E1 in Hy. by eapply Hop.
  Qed.

  Lemma back_step ms n i : reached ms n → reached ms (settle cl 8 (nstep cl n i) i).
  Proof.
    intros H. pose proof H as (Hr & Hf & _).
    assert (∀ x, x = n → reached ms (settle cl 8 x i)) as Hid.
    { intros x ->. rewrite settle_rests; [done|]. unfold rests. destruct (n_threads n !! i) eqn:E; [|done]. exact (proj1 (Forall_lookup _ _) Hr i _ E). }
    destruct (n_threads n !! i) as [t|] eqn:Ht; [|apply Hid; unfold nstep; by rewrite Ht].
    pose proof (proj1 (Forall_lookup _ _) Hr i _ Ht) as Hrt. pose proof (Hf _ _ Ht) as Hft. destruct t as [m c fn rx pc]. unfold fine in Hft. cbn in *.
    destruct pc; try discriminate Hrt.
    - destruct c as [[id b]|]; [by eapply back_client|by eapply back_of].
    - apply Hid. unfold nstep. by rewrite Ht.
    - destruct c as [[id []]|]; [by eapply back_admit|by eapply back_refuse|]. apply Hid. unfold nstep. by rewrite Ht.
    - by eapply back_disc.
    - apply Hid. unfold nstep. by rewrite Ht.
  Qed.
  Lemma back_turn ms n n' : turn cl n n' → reached ms n → reached ms n'.
  Proof.
    intros (_ & Hr & i & m & ->) H. pose proof (settle_run cl (reached ms) n i m (λ x Hx, proj1 Hx) (λ x, back_step ms x i) H) as Hs.
    rewrite settle_rests in Hs; [done|]. unfold rests. destruct (n_threads _ !! i) eqn:E; [|done]. exact (proj1 (Forall_lookup _ _) Hr i _ E).
  Qed.

  (** ** The start *)
  Definition declare (ms : list matcher) : list (sords * op) := (λ m, (os1, OOfParent m None)) <$> ms.
  Lemma declared ms : env_ok csr skip cl (declare ms) ∧ slashed (declare ms) ∧ asks (declare ms) = ["/"] ∧ matched ms (srun (declare ms)).1 ∧
    c_reg (srun (declare ms)).1 = c_reg init.1 ∧ c_nsps (srun (declare ms)).1 = c_nsps init.1 ∧ c_socks (srun (declare ms)).1 = [] ∧ c_clients (srun (declare ms)).1 = [] ∧
    (∀ p, kids (srun (declare ms)).1 p = ∅) ∧ announced (srun (declare ms)).2 = [].
  Proof.
    induction ms as [|m ms IH] using rev_ind; [split_and!; try done; [by intros [] ? ? ?|by intros ? ?%elem_of_nil]|].
    destruct IH as (I1 & I2 & I3 & I4 & I5 & I6 & I7 & I8 & I9 & I10). unfold declare in *. rewrite fmap_app. cbn [fmap list_fmap]. rewrite run_snoc. cbn [step fst snd].
    split_and!; try done.
    - apply env_snoc. split; [done|]. split; [apply os1_ok|done].
    - apply slashed_snoc; [done|]. by intros e ->%elem_of_list_singleton.
    - by rewrite asks_snoc, I3.
    - unfold matched. cbn. by rewrite fmap_app, I4.
    - intros p. unfold kids. cbn. specialize (I9 p). unfold kids in I9. destruct (decide (p < length (c_parents (srun ((λ m, (os1, OOfParent m None)) <$> ms)).1))); [by rewrite lookup_app_l|].
      rewrite lookup_app_r by lia. by destruct (p - _) as [|[]].
  Qed.
  Lemma back_served ms ts : unbegun ts → Forall (plausible ms) ts → reached ms (served cl ts).
  Proof.
    intros Hu Hp. set (t := NThread "/" None None None PStart).
    assert (served cl ts = at_pc (<["/" := 0]> ∅) [NObj "/" None ∅ false] ∅ [] (t :: ts) 0 (with_pc t (PGot 0))) as ->.
    { unfold served. change (ninit (NThread "/" None None None PStart :: ts)) with (at_pc ∅ [] ∅ [] (t :: ts) 0 t). etrans; [apply run_of_new; [cbn; lia|done]|]. done. }
    destruct (declared ms) as (D1 & D2 & D3 & D4 & D5 & D6 & D7 & D8 & D9 & D10).
    assert (∀ u, u ∈ ts → nt_pc u = PStart) as Hu' by (intros u; by apply (proj1 (Forall_forall _ _) Hu)).
    assert (asked ts = []) as Has.
    { clear -Hu'. induction ts as [|u ts IH]; [done|]. cbn. rewrite (Hu' u) by left. unfold asked in IH. rewrite IH; [by destruct (nt_client u)|]. intros v ?. apply Hu'. by right. }
    split; [|split].
    - cbn. apply Forall_cons. split; [done|]. apply Forall_forall. intros u Hin. by rewrite Hu'.
    - intros i u. destruct i as [|i]; cbn; [by intros [= <-]|]. intros Hi. unfold fine. rewrite Hu' by (by eapply elem_of_list_lookup_2). by eapply Forall_lookup_1.
    - exists (declare ms), (λ _, false). split; [done|]. split; [done|]. split; [|split; [done|]].
      + split; cbn.
        * by rewrite D5.
        * rewrite D6. cbn. unfold nsp_view, obj_view. cbn. by rewrite dom_empty_L.
        * intros p. by rewrite D9.
        * by rewrite D10.
        * rewrite D3. unfold asked in Has. by rewrite Has.
        * exists []. rewrite D7. split; [constructor|]. split; [done|]. split; [|by intros k a i Hk]. intros i u Hi. split; [|by intros ?%elem_of_nil]. intros (H1 & H2 & _).
          destruct i as [|i]; cbn in Hi; [injection Hi as <-; by destruct H1|]. by rewrite Hu' in H2 by (by eapply elem_of_list_lookup_2).
      + intros c k. by rewrite D8.
  Qed.
  Lemma c72_histories_l ms ts n : unbegun ts → Forall (plausible ms) ts → rtc (turn cl) (served cl ts) n →
    ∃ h f, env_ok csr skip cl h ∧ slashed h ∧ agree (asks h) f (srun h) n ∧ pa_match <$> c_parents (srun h).1 = ms.
  Proof.
    intros Hu Hp Hn. assert (reached ms n) as (_ & _ & h & f & H1 & H2 & H3 & H4 & _).
    { pose proof (back_served ms ts Hu Hp) as H. revert H. induction Hn as [|x y z H1 _ IH]; [done|]. intros H. apply IH. by eapply back_turn. }
    eauto 10.
  Qed.
End back.
