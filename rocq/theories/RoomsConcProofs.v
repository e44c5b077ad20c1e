(** Proofs about concurrent joins and leaves. *)
From Verif Require Import Base Rooms RoomsConc RoomsConcSpec.

Lemma upd_same f x k v : upd f x k v x k = v.
Proof. unfold upd. rewrite decide_True by done. done. Qed.
Lemma upd_other f x k v y j : (y, j) ≠ (x, k) → upd f x k v y j = f y j.
Proof. intros H. unfold upd. rewrite decide_False; [done|]. intros [-> ->]. done. Qed.
Lemma upd_elem f x k v y j z : z ∈ upd f x k v y j → (y = x ∧ j = k ∧ z ∈ v) ∨ z ∈ f y j.
Proof. unfold upd. destruct (decide (y = x ∧ j = k)) as [[-> ->]|]; auto. Qed.
Lemma upd_mono f x k v y j z : (z ∈ f x k → z ∈ v) → z ∈ f y j → z ∈ upd f x k v y j.
Proof. unfold upd. destruct (decide (y = x ∧ j = k)) as [[-> ->]|]; auto. Qed.

(** The room and the pointer to its set a call is working with. *)
Definition pc_ptr (p : rcpc) : option (room * nat) :=
  match p with PHas _ q r _ | PAdd _ q r _ | PTake q r _ | PLen q r _ => Some (r, q) | _ => None end.
(** The rooms a call has still to remove its socket from, or is checking. *)
Definition pc_dels (p : rcpc) : list room :=
  match p with PUnmark _ r => [r] | PLoad r rest | PTake _ r rest | PLen _ r rest | PDrop r rest => r :: rest | _ => [] end.
Definition pc_adds (p : rcpc) : list room :=
  match p with PMark _ r rest | PGet _ r rest | PHas _ _ r rest | PAdd _ _ r rest => r :: rest | _ => [] end.
Definition pc_sptr (p : rcpc) : option nat :=
  match p with PMark k _ _ | PGet k _ _ | PHas k _ _ _ | PAdd k _ _ _ | PUnmark k _ | PKeys k => Some k | _ => None end.
Definition add_pc (p : rcpc) : bool := match p with PStart | PMark _ _ _ | PGet _ _ _ | PHas _ _ _ _ | PAdd _ _ _ _ | PDone => true | _ => false end.
Definition del_pc (p : rcpc) : bool := match p with PStart | PUnmark _ _ | PLoad _ _ | PTake _ _ _ | PLen _ _ _ | PDrop _ _ | PDone => true | _ => false end.
Definition delall_pc (p : rcpc) : bool := match p with PStart | PKeys _ | PLoad _ _ | PTake _ _ _ | PLen _ _ _ | PDrop _ _ | PEnd | PDone => true | _ => false end.

Section proofs.
  Context (o : order) (Ho : order_ok o) (g : registry) (ts : list rcall).
  Definition source (id : sid) (r : room) : Prop := r ∈ rooms_of g id ∨ joins ts id r.
  Definition source_r (id : sid) (r : room) : Prop := id ∈ members_of g r ∨ joins ts id r.
  Definition pc_ok (t : rcall) (p : rcpc) : Prop :=
    match t with
    | RcAdd id R => add_pc p = true ∧ ∀ r, r ∈ pc_adds p → r ∈ R
    | RcDel id r => del_pc p = true ∧ ∀ r', r' ∈ pc_dels p → r' = r
    | RcDelAll id => delall_pc p = true ∧ ∀ r, r ∈ pc_dels p → source id r
    end.
  Record cinv (c : rcconf) : Prop := {
    ci_threads : c.2.*1 = ts;
    ci_src : ∀ id k r, r ∈ cv_srooms c.1 id k → source id r;
    ci_srcr : ∀ r k id, id ∈ cv_members c.1 r k → source_r id r;
    ci_pc : ∀ t p, (t, p) ∈ c.2 → pc_ok t p }.

  Lemma next_add_adds k rest r : r ∈ pc_adds (next_add k rest) → r ∈ rest.
  Proof. destruct rest; [by intros ?%elem_of_nil|done]. Qed.
  Lemma next_add_pc k rest : add_pc (next_add k rest) = true.
  Proof. by destruct rest. Qed.
  Lemma next_del_dels t rest r : r ∈ pc_dels (next_del t rest) → r ∈ rest.
  Proof. destruct rest; [destruct t; by intros ?%elem_of_nil|done]. Qed.

  Lemma elem_ins {A} (l : list A) i x y z : l !! i = Some x → z ∈ <[i := y]> l → z = y ∨ z ∈ l.
  Proof.
    intros Hi [j Hj]%elem_of_list_lookup. destruct (decide (j = i)) as [->|].
    - rewrite list_lookup_insert in Hj by (by eapply lookup_lt_Some). injection Hj as <-. by left.
    - rewrite list_lookup_insert_ne in Hj by done. right. by eapply elem_of_list_lookup_2.
  Qed.

  Lemma step_pc_ok t p s : (t ∈ ts) → (∀ id k r, r ∈ cv_srooms s id k → source id r) → pc_ok t p → pc_ok t (rc_step1 o t p s).1.
  Proof.
    intros Ht Hsrc Hok. destruct t as [id R|id r|id]; destruct Hok as [Hp Hr]; destruct p; try discriminate Hp; cbn -[next_add next_del] in *.
    all: repeat match goal with |- context [match ?x with _ => _ end] => destruct x eqn:?; cbn -[next_add next_del] in * end.
    all: try (split; [first [done|apply next_add_pc]|]; intros r'; first [by intros ?%elem_of_nil|intros Hx%next_add_adds; apply Hr; by right|intros Hx; by apply Hr|by intros Hx%next_add_adds]).
    all: split; [first [done|by destruct rest|by destruct (o _)]|]; intros r' Hx.
    all: try (apply next_del_dels in Hx; apply Hr; by right).
    all: try (by apply elem_of_list_singleton in Hx).
    apply next_del_dels, order_elem in Hx; [|done]. by apply Hsrc in Hx.
  Qed.

  (** What one step does to the shared state. *)
  Lemma step_srooms t p s id k r : r ∈ cv_srooms (rc_step1 o t p s).2 id k → r ∈ cv_srooms s id k ∨ ∃ rest, p = PMark k r rest ∧ rc_id t = id.
  Proof.
    destruct p; cbn -[next_add next_del upd]; try (by left).
    - destruct t, (cv_sids s !! _); cbn -[next_add next_del upd]; try (by left). intros [(-> & -> & ?)|?]%upd_elem; [set_solver|by left].
    - intros [(-> & -> & [->%elem_of_singleton|?]%elem_of_union)|?]%upd_elem; [right; eauto|by left..].
    - destruct (cv_rooms s !! r0); by left.
    - intros [(-> & -> & [? _]%elem_of_difference)|?]%upd_elem; by left.
  Qed.
  Lemma step_members t p s id k r : id ∈ cv_members (rc_step1 o t p s).2 r k → id ∈ cv_members s r k ∨ ∃ k0 rest, p = PAdd k0 k r rest ∧ rc_id t = id.
  Proof.
    destruct p; cbn -[next_add next_del upd]; try (by left).
    - destruct t, (cv_sids s !! _); by left.
    - destruct (cv_rooms s !! r0); cbn -[next_add next_del upd]; [by left|]. intros [(-> & -> & ?)|?]%upd_elem; [set_solver|by left].
    - intros [(-> & -> & [->%elem_of_singleton|?]%elem_of_union)|?]%upd_elem; [right; eauto|by left..].
    - intros [(-> & -> & [? _]%elem_of_difference)|?]%upd_elem; by left.
  Qed.
  Lemma keep_srooms t p s id k r : r ∈ cv_srooms s id k →
    r ∈ cv_srooms (rc_step1 o t p s).2 id k ∨ (p = PUnmark k r ∧ rc_id t = id) ∨ (cv_sids s !! id = None).
  Proof.
    intros Hr. destruct p; cbn -[next_add next_del upd]; try (by left).
    - destruct t as [id' R|id' r'|id']; cbn [rc_id]; destruct (cv_sids s !! id') eqn:E; cbn -[next_add next_del upd]; try (by left).
      destruct (decide (id' = id)) as [->|]; [by right; right|left]. rewrite upd_other; congruence.
    - left. apply upd_mono; [|done]. intros. apply elem_of_union. by right.
    - destruct (cv_rooms s !! r0); by left.
    - destruct (decide (rc_id t = id)) as [Hid|]; [|left; rewrite upd_other by congruence; done].
      destruct (decide (k0 = k)) as [->|]; [|left; rewrite upd_other by congruence; done].
      destruct (decide (r0 = r)) as [->|]; [by right; left|]. left. apply upd_mono; [|done]. intros. apply elem_of_difference. split; [done|]. intros Hx%elem_of_singleton. congruence.
  Qed.
  Lemma keep_members t p s id k r : id ∈ cv_members s r k →
    id ∈ cv_members (rc_step1 o t p s).2 r k ∨ (∃ rest, p = PTake k r rest ∧ rc_id t = id) ∨ cv_rooms s !! r = None.
  Proof.
    intros Hr. destruct p; cbn -[next_add next_del upd]; try (by left).
    - destruct t, (cv_sids s !! _); by left.
    - destruct (cv_rooms s !! r0) eqn:E; cbn -[next_add next_del upd]; [by left|].
      destruct (decide (r0 = r)) as [->|]; [by right; right|left]. rewrite upd_other; congruence.
    - left. apply upd_mono; [|done]. intros. apply elem_of_union. by right.
    - destruct (decide (r0 = r)) as [->|]; [|left; rewrite upd_other by congruence; done].
      destruct (decide (q = k)) as [->|]; [|left; rewrite upd_other by congruence; done].
      destruct (decide (rc_id t = id)) as [Hid|]; [right; left; eauto|].
      left. apply upd_mono; [|done]. intros. apply elem_of_difference. split; [done|]. intros Hx%elem_of_singleton. congruence.
  Qed.
  Lemma keep_room t p s r q : cv_rooms s !! r = Some q → cv_rooms (rc_step1 o t p s).2 !! r = Some q ∨ ∃ rest, p = PDrop r rest.
  Proof.
    intros Hr. destruct p; cbn -[next_add next_del upd]; try (by left).
    - destruct t, (cv_sids s !! _); by left.
    - destruct (cv_rooms s !! r0) eqn:E; cbn; [by left|]. left. rewrite lookup_insert_ne; congruence.
    - destruct (decide (r0 = r)) as [->|]; [eauto|]. left. by rewrite lookup_delete_ne.
  Qed.
  Lemma step_room t p s r q : cv_rooms (rc_step1 o t p s).2 !! r = Some q →
    cv_rooms s !! r = Some q ∨ (cv_rooms s !! r = None ∧ cv_members (rc_step1 o t p s).2 r q = ∅).
  Proof.
    destruct p; cbn -[next_add next_del upd]; try (by left).
    - destruct t, (cv_sids s !! _); by left.
    - destruct (cv_rooms s !! r0) eqn:E; cbn -[upd]; [by left|]. intros [[<- <-]|[_ ?]]%lookup_insert_Some; [right|by left]. by rewrite upd_same.
    - intros [_ ?]%lookup_delete_Some. by left.
  Qed.
  Lemma keep_sid t p s id k : cv_sids s !! id = Some k → cv_sids (rc_step1 o t p s).2 !! id = Some k ∨ (p = PEnd ∧ rc_id t = id).
  Proof.
    intros Hr. destruct p; cbn -[next_add next_del upd]; try (by left).
    - destruct t as [id' R|id' r'|id']; cbn [rc_id]; destruct (cv_sids s !! id') eqn:E; cbn -[next_add next_del upd]; try (by left).
      left. rewrite lookup_insert_ne; congruence.
    - destruct (cv_rooms s !! r); by left.
    - destruct (decide (rc_id t = id)) as [->|]; [by right|]. left. by rewrite lookup_delete_ne.
  Qed.
  Lemma step_sid t p s id k : cv_sids (rc_step1 o t p s).2 !! id = Some k →
    cv_sids s !! id = Some k ∨ (cv_sids s !! id = None ∧ cv_srooms (rc_step1 o t p s).2 id k = ∅).
  Proof.
    destruct p; cbn -[next_add next_del upd]; try (by left).
    - destruct t as [id' R|id' r'|id']; cbn [rc_id]; destruct (cv_sids s !! id') eqn:E; cbn -[next_add next_del upd]; try (by left).
      intros [[<- <-]|[_ ?]]%lookup_insert_Some; [right|by left]. by rewrite upd_same.
    - destruct (cv_rooms s !! r); by left.
    - intros [_ ?]%lookup_delete_Some. by left.
  Qed.

  (** The configuration after a step of call [i]. *)
  Lemma rc_step_cases (c : rcconf) (i : nat) : (rc_step o c i = c) ∨
    ∃ t p, c.2 !! i = Some (t, p) ∧ (t, p) ∈ c.2 ∧ rc_step o c i = ((rc_step1 o t p c.1).2, <[i := (t, (rc_step1 o t p c.1).1)]> c.2) ∧
           (∀ x, x ∈ (rc_step o c i).2 → x = (t, (rc_step1 o t p c.1).1) ∨ x ∈ c.2).
  Proof.
    unfold rc_step. destruct (c.2 !! i) as [[t p]|] eqn:E; [|by left]. right. exists t, p. split_and!; [done|by eapply elem_of_list_lookup_2|done|].
    intros x Hx. cbn in Hx. by eapply elem_ins.
  Qed.
  Lemma cinv_step c i : cinv c → cinv (rc_step o c i).
  Proof.
    intros I. destruct (rc_step_cases c i) as [->|(t & p & Hi & Hin & E & Hx)]; [done|].
    assert (t ∈ ts) as Ht. { rewrite <-(ci_threads _ I). by apply (elem_of_list_fmap_1 fst _ (t, p)). }
    pose proof (ci_pc _ I _ _ Hin) as Hok. rewrite E in *. constructor; cbn [fst snd] in *.
    - rewrite list_fmap_insert. cbn. rewrite <-(ci_threads _ I). apply list_insert_id. by rewrite list_lookup_fmap, Hi.
    - intros id k r [?|(rest & -> & <-)]%step_srooms; [by eapply ci_src|].
      destruct t as [id R|id r'|id]; destruct Hok as [? Hr]; try done. right. exists R. split; [done|]. apply Hr. left.
    - intros r k id [?|(k0 & rest & -> & <-)]%step_members; [by eapply ci_srcr|].
      destruct t as [id R|id r'|id]; destruct Hok as [? Hr]; try done. right. exists R. split; [done|]. apply Hr. left.
    - intros t' p' [[= -> ->]|?]%Hx; [|by apply (ci_pc _ I)]. apply step_pc_ok; [done|apply (ci_src _ I)|done].
  Qed.
  Lemma init_pc t p : (t, p) ∈ (λ t, (t, PStart)) <$> ts → p = PStart.
  Proof. by intros (? & [= _ ->] & _)%elem_of_list_fmap. Qed.
  Lemma cinv_run sched : cinv (rc_run o g ts sched).
  Proof.
    induction sched as [|i sched IH] using rev_ind.
    - constructor; cbn [fst snd rc_run foldl].
      + rewrite <-list_fmap_compose. by rewrite list_fmap_id.
      + intros id k r. cbn. destruct (decide _); [by left|set_solver].
      + intros r k id. cbn. destruct (decide _); [by left|set_solver].
      + intros t p ->%init_pc. destruct t; (split; [done|]); intros ? ?; set_solver.
    - unfold rc_run. rewrite foldl_app. apply cinv_step, IH.
  Qed.
  Lemma call_in sched t p : (t, p) ∈ (rc_run o g ts sched).2 → t ∈ ts.
  Proof. intros H. rewrite <-(ci_threads _ (cinv_run sched)). by apply (elem_of_list_fmap_1 fst _ (t, p)). Qed.
  Lemma call_of sched t : t ∈ ts → ∃ p, (t, p) ∈ (rc_run o g ts sched).2.
  Proof. intros H. rewrite <-(ci_threads _ (cinv_run sched)) in H. apply elem_of_list_fmap in H as ([t' p] & -> & H). by exists p. Qed.

  (** *** Membership is never invented *)
  Lemma sound sched id r : agreeing g →
    (id ∈ conc_members (rc_run o g ts sched).1 r ∨ r ∈ conc_rooms_of (rc_run o g ts sched).1 id) → id ∈ members_of g r ∨ joins ts id r.
  Proof.
    intros Hag [H|H].
    - unfold conc_members in H. destruct (cv_rooms _ !! r); [|set_solver]. by apply (ci_srcr _ (cinv_run sched)) in H.
    - unfold conc_rooms_of in H. destruct (cv_sids _ !! id); [|set_solver]. apply (ci_src _ (cinv_run sched)) in H as [?|?]; [left; by apply Hag|by right].
  Qed.

  (** *** Joins *)
  Section stable.
    Context (r : room) (Hstable : untouched g ts r ∨ inhabited g ts r).
    Record sinv (c : rcconf) : Prop := {
      si_drop : ∀ t rest, (t, PDrop r rest) ∉ c.2;
      si_ptr : ∀ t p q, (t, p) ∈ c.2 → pc_ptr p = Some (r, q) → cv_rooms c.1 !! r = Some q;
      si_case : (∃ m q, cv_rooms c.1 !! r = Some q ∧ m ∈ cv_members c.1 r q ∧ ¬ leaves ts m r) ∨ untouched g ts r }.
    (** A call that is at a removal from [r] is by a socket that may leave it. *)
    Lemma at_del c t p : cinv c → (t, p) ∈ c.2 → r ∈ pc_dels p → leaves ts (rc_id t) r ∧ ¬ untouched g ts r.
    Proof.
      intros I Hin Hd. pose proof (ci_pc _ I _ _ Hin) as Hok.
      assert (t ∈ ts) as Ht. { rewrite <-(ci_threads _ I). by apply (elem_of_list_fmap_1 fst _ (t, p)). }
      destruct t as [id R|id r'|id]; destruct Hok as [Hp Hr].
      - exfalso. destruct p; try done; by apply elem_of_nil in Hd.
      - apply Hr in Hd as ->. split; [by left|]. intros H. by apply H in Ht.
      - apply Hr in Hd. split; [by right|]. intros H. apply H in Ht as [H1 H2]. by destruct Hd.
    Qed.
    Lemma sinv_step c i : cinv c → sinv c → sinv (rc_step o c i).
    Proof.
      intros I S. destruct (rc_step_cases c i) as [->|(t & p & Hi & Hin & E & Hx)]; [done|]. rewrite E in *.
      assert (¬ ∃ rest, p = PDrop r rest) as Hnd. { intros (rest & ->). by apply (si_drop _ S) in Hin. }
      assert (∀ q, cv_rooms c.1 !! r = Some q → cv_rooms (rc_step1 o t p c.1).2 !! r = Some q) as Hroom.
      { intros q Hq. destruct (keep_room t p c.1 r q Hq) as [|]; done. }
      constructor; cbn [fst snd] in *.
      - intros t' rest [[= -> Hp']|?]%Hx; [|by eapply (si_drop _ S)]. destruct p; cbn -[next_add next_del] in Hp'.
        + destruct t, (cv_sids _ !! _); try discriminate Hp'; destruct rooms; discriminate Hp'.
        + discriminate Hp'.
        + destruct (cv_rooms c.1 !! r0); discriminate Hp'.
        + destruct (decide _); [destruct rest0|]; discriminate Hp'.
        + destruct rest0; discriminate Hp'.
        + discriminate Hp'.
        + destruct t, (o _); discriminate Hp'.
        + destruct (cv_rooms c.1 !! r0); [|destruct t, rest0]; discriminate Hp'.
        + discriminate Hp'.
        + destruct (decide (cv_members c.1 r0 q = ∅)) as [Hz|Hz]; [|destruct t, rest0; discriminate Hp']. injection Hp' as <- <-.
          destruct (si_case _ S) as [(m & q' & Hq & Hm & _)|Hu].
          * rewrite (si_ptr _ S _ _ q Hin eq_refl) in Hq. injection Hq as <-. rewrite Hz in Hm. by apply not_elem_of_empty in Hm.
          * destruct (at_del c _ _ I Hin) as [_ H]; [left|]. done.
        + destruct t, rest0; discriminate Hp'.
        + discriminate Hp'.
        + discriminate Hp'.
      - intros t' p' q [[= -> Hp']|?]%Hx Hptr; [|apply Hroom; by eapply (si_ptr _ S)]. subst p'.
        pose proof (si_ptr _ S t p) as Hold. destruct p; cbn -[next_add next_del] in Hptr |- *.
        + destruct t as [? R| |], (cv_sids _ !! _); try discriminate Hptr; destruct R; discriminate Hptr.
        + discriminate Hptr.
        + destruct (cv_rooms c.1 !! r0) eqn:Er; cbn in Hptr |- *; injection Hptr as -> ->; [done|]. by rewrite lookup_insert.
        + destruct (decide _); [destruct rest; discriminate Hptr|]. cbn in Hptr. injection Hptr as -> ->. by apply Hold.
        + destruct rest; discriminate Hptr.
        + discriminate Hptr.
        + destruct t, (o _); discriminate Hptr.
        + destruct (cv_rooms c.1 !! r0) eqn:Er; cbn -[next_del] in Hptr |- *; [|destruct t, rest; discriminate Hptr]. by injection Hptr as -> ->.
        + injection Hptr as -> ->. by apply Hold.
        + destruct (decide _); [discriminate Hptr|]. destruct t, rest; discriminate Hptr.
        + destruct t, rest; discriminate Hptr.
        + discriminate Hptr.
        + discriminate Hptr.
      - destruct (si_case _ S) as [(m & q & Hq & Hm & Hl)|Hu]; [|by right]. left. exists m, q. split_and!; [by apply Hroom| |done].
        destruct (keep_members t p c.1 m q r Hm) as [|[(rest & -> & <-)|]]; [done| |congruence].
        destruct (at_del c _ _ I Hin) as [H _]; [left|]. done.
    Qed.
    Lemma sinv_run sched : sinv (rc_run o g ts sched).
    Proof.
      induction sched as [|i sched IH] using rev_ind.
      - constructor; cbn [fst snd rc_run foldl].
        + intros t rest H%init_pc. done.
        + intros t p q ->%init_pc. done.
        + destruct Hstable as [|(m & Hm & Hl)]; [by right|]. left. unfold members_of in Hm. destruct (rg_rooms g !! r) as [X|] eqn:E; [|set_solver].
          exists m, 0. cbn. rewrite lookup_fmap, E. split_and!; [done| |done]. unfold members_of. by rewrite E.
      - unfold rc_run. rewrite foldl_app. apply sinv_step; [apply cinv_run|apply IH].
    Qed.

    Context (id : sid) (Hstays : ¬ leaves ts id r).
    Record jinv (c : rcconf) : Prop := {
      ji_sptr : ∀ R p k, (RcAdd id R, p) ∈ c.2 → pc_sptr p = Some k → cv_sids c.1 !! id = Some k;
      ji_marked : ∀ R p, (RcAdd id R, p) ∈ c.2 → r ∈ R → p ≠ PStart → (match p with PMark _ x rest => r = x ∨ r ∈ rest | PGet _ _ rest | PHas _ _ _ rest | PAdd _ _ _ rest => r ∈ rest | _ => False end) ∨ r ∈ conc_rooms_of c.1 id;
      ji_member : ∀ R p, (RcAdd id R, p) ∈ c.2 → r ∈ R → p ≠ PStart → r ∈ pc_adds p ∨ id ∈ conc_members c.1 r;
      ji_init : id ∈ members_of g r → r ∈ rooms_of g id → r ∈ conc_rooms_of c.1 id ∧ id ∈ conc_members c.1 r }.
    Lemma stay_member c t p : cinv c → sinv c → (t, p) ∈ c.2 → id ∈ conc_members c.1 r → id ∈ conc_members (rc_step1 o t p c.1).2 r.
    Proof.
      intros I S Hin. unfold conc_members. destruct (cv_rooms c.1 !! r) as [q|] eqn:E; [|set_solver]. intros Hm.
      destruct (keep_room t p c.1 r q E) as [->|(rest & ->)]; [|by apply (si_drop _ S) in Hin].
      destruct (keep_members t p c.1 id q r Hm) as [|[(rest & -> & <-)|]]; [done| |congruence].
      destruct (at_del c _ _ I Hin) as [H _]; [left|]. done.
    Qed.
    Lemma no_end c p : cinv c → (RcDelAll id, p) ∈ c.2 → False.
    Proof. intros I Hin. apply Hstays. right. rewrite <-(ci_threads _ I). by apply (elem_of_list_fmap_1 fst _ (RcDelAll id, p)). Qed.
    Lemma stay_sid c t p k : cinv c → (t, p) ∈ c.2 → cv_sids c.1 !! id = Some k → cv_sids (rc_step1 o t p c.1).2 !! id = Some k.
    Proof.
      intros I Hin Hk. destruct (keep_sid t p c.1 id k Hk) as [|[-> Hid]]; [done|]. exfalso.
      pose proof (ci_pc _ I _ _ Hin) as Hok. destruct t as [id' R|id' r'|id']; destruct Hok as [? _]; try done. cbn in Hid. subst id'. by eapply no_end.
    Qed.
    Lemma stay_room c t p : cinv c → (t, p) ∈ c.2 → r ∈ conc_rooms_of c.1 id → r ∈ conc_rooms_of (rc_step1 o t p c.1).2 id.
    Proof.
      intros I Hin. unfold conc_rooms_of. destruct (cv_sids c.1 !! id) as [k|] eqn:E; [|set_solver]. intros Hr.
      rewrite (stay_sid c t p k I Hin E). destruct (keep_srooms t p c.1 id k r Hr) as [|[[-> Hid]|]]; [done| |congruence].
      destruct (at_del c _ _ I Hin) as [H _]; [left|]. by rewrite Hid in H.
    Qed.
    Lemma jinv_step c i : cinv c → sinv c → jinv c → jinv (rc_step o c i).
    Proof.
      intros I S J. destruct (rc_step_cases c i) as [->|(t & p & Hi & Hin & E & Hx)]; [done|]. rewrite E in *.
      constructor; cbn [fst snd] in *.
      - intros R p' k [[= <- Hp']|?]%Hx Hptr; [|apply stay_sid; [done..|]; by eapply (ji_sptr _ J)]. subst p'.
        pose proof (ji_sptr _ J R p) as Hold. pose proof (ci_pc _ I _ _ Hin) as [Hpc _]. destruct p; try discriminate Hpc; cbn -[next_add next_del] in Hptr |- *.
        + destruct (cv_sids c.1 !! id) eqn:Es; cbn -[next_add next_del] in Hptr |- *; (destruct R as [|x R]; [discriminate Hptr|]); cbn in Hptr; injection Hptr as <-; [done|]. by rewrite lookup_insert.
        + injection Hptr as <-. by apply Hold.
        + destruct (cv_rooms c.1 !! r0); cbn in Hptr |- *; injection Hptr as <-; by apply Hold.
        + destruct (decide _); [destruct rest; [discriminate Hptr|]|]; cbn in Hptr; injection Hptr as <-; by apply Hold.
        + destruct rest; [discriminate Hptr|]; cbn in Hptr; injection Hptr as <-; by apply Hold.
        + discriminate Hptr.
      - intros R p' [[= <- Hp']|H]%Hx Hr Hns; [|destruct (ji_marked _ J R p' H Hr Hns) as [|]; [by left|right; by apply stay_room]]. subst p'.
        assert (∀ k rest, r ∈ rest → match next_add k rest with PMark _ x rest => r = x ∨ r ∈ rest | PGet _ _ rest | PHas _ _ _ rest | PAdd _ _ _ rest => r ∈ rest | _ => False end) as Hnext.
        { intros k rest Hrest. destruct rest; [by apply elem_of_nil in Hrest|]. by apply elem_of_cons in Hrest. }
        pose proof (stay_room c _ _ I Hin) as Hstay. assert (p = PStart ∨ p ≠ PStart) as [->|Hne] by (clear; destruct p; auto; by right).
        { left. cbn -[next_add]. destruct (cv_sids c.1 !! id); cbn -[next_add]; by apply Hnext. }
        destruct (ji_marked _ J R p Hin Hr Hne) as [H|H]; [|by right; apply Hstay].
        pose proof (ci_pc _ I _ _ Hin) as [Hpc _]. destruct p; try discriminate Hpc; cbn -[next_add next_del upd] in H |- *; try done.
        + destruct H as [<-|H]; [right|by left]. unfold conc_rooms_of. cbn -[upd]. rewrite (ji_sptr _ J R _ _ Hin eq_refl), upd_same. apply elem_of_union. left. by apply elem_of_singleton.
        + destruct (cv_rooms c.1 !! r0); cbn; by left.
        + destruct (decide _); [left; by apply Hnext|by left].
        + left. by apply Hnext.
      - intros R p' [[= <- Hp']|H]%Hx Hr Hns; [|destruct (ji_member _ J R p' H Hr Hns) as [|]; [by left|right; by apply stay_member]]. subst p'.
        assert (∀ k rest, r ∈ rest → r ∈ pc_adds (next_add k rest)) as Hnext.
        { intros k rest Hrest. destruct rest; [by apply elem_of_nil in Hrest|]. done. }
        pose proof (stay_member c _ _ I S Hin) as Hstay. assert (p = PStart ∨ p ≠ PStart) as [->|Hne] by (clear; destruct p; auto; by right).
        { left. cbn -[next_add]. destruct (cv_sids c.1 !! id); cbn -[next_add]; by apply Hnext. }
        destruct (ji_member _ J R p Hin Hr Hne) as [H|H]; [|by right; apply Hstay].
        pose proof (ci_pc _ I _ _ Hin) as [Hpc _]. pose proof (si_ptr _ S (RcAdd id R) p) as Hptr. destruct p; try discriminate Hpc; cbn -[next_add next_del upd] in H |- *; try done.
        + by left.
        + destruct (cv_rooms c.1 !! r0); cbn; by left.
        + destruct (decide (id ∈ cv_members c.1 r0 q)) as [Hm|]; [|by left]. apply elem_of_cons in H as [<-|H]; [right|left; by apply Hnext].
          unfold conc_members. by rewrite (Hptr _ Hin eq_refl).
        + apply elem_of_cons in H as [<-|H]; [right|left; by apply Hnext].
          unfold conc_members. cbn -[upd]. rewrite (Hptr _ Hin eq_refl), upd_same. apply elem_of_union. left. by apply elem_of_singleton.
        + by apply elem_of_nil in H.
      - intros H1 H2. destruct (ji_init _ J H1 H2). split; [by apply stay_room|by apply stay_member].
    Qed.
    Lemma jinv_run sched : jinv (rc_run o g ts sched).
    Proof.
      induction sched as [|i sched IH] using rev_ind.
      - constructor; cbn [fst snd rc_run foldl].
        + intros R p k ->%init_pc. done.
        + intros R p ->%init_pc. done.
        + intros R p ->%init_pc. done.
        + unfold conc_rooms_of, conc_members, rooms_of, members_of. cbn. rewrite !lookup_fmap. intros H1 H2.
          destruct (rg_rooms g !! r) eqn:E1; [|set_solver]. destruct (rg_sids g !! id) eqn:E2; [|set_solver]. cbn.
          unfold rooms_of, members_of. by rewrite E1, E2.
      - unfold rc_run. rewrite foldl_app. apply jinv_step; [apply cinv_run|apply sinv_run|apply IH].
    Qed.
  End stable.

  Lemma joined sched id r : agreeing g → untouched g ts r ∨ inhabited g ts r → (id ∈ members_of g r ∨ joins ts id r) → ¬ leaves ts id r →
    returned (rc_run o g ts sched) → id ∈ conc_members (rc_run o g ts sched).1 r ∧ r ∈ conc_rooms_of (rc_run o g ts sched).1 id.
  Proof.
    intros Hag Hst [Hm|(R & HR & Hr)] Hl Hret.
    - destruct (ji_init r id _ (jinv_run r Hst id Hl sched) Hm) as [? ?]; [by apply Hag|]. done.
    - destruct (call_of sched _ HR) as (p & Hp). rewrite (Hret _ _ Hp) in Hp.
      destruct (ji_member r id _ (jinv_run r Hst id Hl sched) R PDone Hp Hr) as [H|H]; [done|by apply elem_of_nil in H|].
      destruct (ji_marked r id _ (jinv_run r Hst id Hl sched) R PDone Hp Hr) as [H'|H']; [done..|]. done.
  Qed.
  (** A member that does not leave stays, whatever the others do. *)
  Lemma remains sched id r : agreeing g → id ∈ members_of g r → ¬ leaves ts id r → returned (rc_run o g ts sched) →
    id ∈ conc_members (rc_run o g ts sched).1 r ∧ r ∈ conc_rooms_of (rc_run o g ts sched).1 id.
  Proof. intros Hag Hm Hl. apply joined; [done|right; by exists id|by left|done]. Qed.

  (** *** Leaves *)
  Section leave.
    Context (id : sid) (r : room) (Hag : agreeing g) (Hno : ¬ joins ts id r).
    (** Once [id] is out of a table, it stays out. *)
    Lemma stay_out c t p : cinv c → (t, p) ∈ c.2 → id ∉ conc_members c.1 r → id ∉ conc_members (rc_step1 o t p c.1).2 r.
    Proof.
      intros I Hin Hn Hm. unfold conc_members in Hn, Hm. destruct (cv_rooms (rc_step1 o t p c.1).2 !! r) as [q|] eqn:E; [|set_solver].
      destruct (step_room t p c.1 r q E) as [Eq|[_ Hz]]; [|rewrite Hz in Hm; set_solver]. rewrite Eq in Hn.
      destruct (step_members t p c.1 id q r Hm) as [|(k0 & rest & -> & Hid)]; [done|].
      assert (t ∈ ts) as Ht. { rewrite <-(ci_threads _ I). by apply (elem_of_list_fmap_1 fst _ (t, PAdd k0 q r rest)). }
      pose proof (ci_pc _ I _ _ Hin) as Hok. destruct t as [id' R|id' r'|id']; destruct Hok as [? HR]; try done. cbn in Hid. subst id'.
      apply Hno. exists R. split; [done|]. apply HR. left.
    Qed.
    Lemma stay_unmarked c t p : cinv c → (t, p) ∈ c.2 → r ∉ conc_rooms_of c.1 id → r ∉ conc_rooms_of (rc_step1 o t p c.1).2 id.
    Proof.
      intros I Hin Hn Hm. unfold conc_rooms_of in Hn, Hm. destruct (cv_sids (rc_step1 o t p c.1).2 !! id) as [q|] eqn:E; [|set_solver].
      destruct (step_sid t p c.1 id q E) as [Eq|[_ Hz]]; [|rewrite Hz in Hm; set_solver]. rewrite Eq in Hn.
      destruct (step_srooms t p c.1 id q r Hm) as [|(rest & -> & Hid)]; [done|].
      assert (t ∈ ts) as Ht. { rewrite <-(ci_threads _ I). by apply (elem_of_list_fmap_1 fst _ (t, PMark q r rest)). }
      pose proof (ci_pc _ I _ _ Hin) as Hok. destruct t as [id' R|id' r'|id']; destruct Hok as [? HR]; try done. cbn in Hid. subst id'.
      apply Hno. exists R. split; [done|]. apply HR. left.
    Qed.
    Lemma still_same c t p q : cinv c → (t, p) ∈ c.2 → (id ∈ conc_members c.1 r → cv_rooms c.1 !! r = Some q) →
      id ∈ conc_members (rc_step1 o t p c.1).2 r → cv_rooms (rc_step1 o t p c.1).2 !! r = Some q.
    Proof.
      intros I Hin Hq Hm. destruct (decide (id ∈ conc_members c.1 r)) as [Ho'|Ho']; [|by apply (stay_out c t p) in Ho'].
      specialize (Hq Ho'). unfold conc_members in Hm. destruct (cv_rooms (rc_step1 o t p c.1).2 !! r) as [q'|] eqn:E; [|set_solver].
      destruct (step_room t p c.1 r q' E) as [Eq|[Eq _]]; congruence.
    Qed.
    Lemma still_same_sid c t p k : cinv c → (t, p) ∈ c.2 → (r ∈ conc_rooms_of c.1 id → cv_sids c.1 !! id = Some k) →
      r ∈ conc_rooms_of (rc_step1 o t p c.1).2 id → cv_sids (rc_step1 o t p c.1).2 !! id = Some k.
    Proof.
      intros I Hin Hq Hm. destruct (decide (r ∈ conc_rooms_of c.1 id)) as [Ho'|Ho']; [|by apply (stay_unmarked c t p) in Ho'].
      specialize (Hq Ho'). unfold conc_rooms_of in Hm. destruct (cv_sids (rc_step1 o t p c.1).2 !! id) as [q'|] eqn:E; [|set_solver].
      destruct (step_sid t p c.1 id q' E) as [Eq|[Eq _]]; congruence.
    Qed.
    (** Removing [id] from the current set. *)
    Lemma taken c t q rest : cinv c → (t, PTake q r rest) ∈ c.2 → rc_id t = id → (id ∈ conc_members c.1 r → cv_rooms c.1 !! r = Some q) →
      id ∉ conc_members (rc_step1 o t (PTake q r rest) c.1).2 r.
    Proof.
      intros I Hin Hid Hq Hm. pose proof (still_same c _ _ q I Hin Hq Hm) as E. unfold conc_members in Hm. rewrite E in Hm. cbn -[upd] in Hm.
      rewrite upd_same, Hid in Hm. apply elem_of_difference in Hm as [_ Hm]. by apply Hm, elem_of_singleton.
    Qed.

    (** Del *)
    Definition del_out (s : cview) (p : rcpc) : Prop :=
      match p with
      | PStart | PUnmark _ _ | PLoad _ _ => True
      | PTake q _ _ => id ∈ conc_members s r → cv_rooms s !! r = Some q
      | _ => id ∉ conc_members s r
      end.
    Definition del_unmarked (s : cview) (p : rcpc) : Prop :=
      match p with PStart => True | PUnmark k _ => r ∈ conc_rooms_of s id → cv_sids s !! id = Some k | _ => r ∉ conc_rooms_of s id end.
    Record linv (c : rcconf) : Prop := {
      li_del : ∀ p, (RcDel id r, p) ∈ c.2 → del_out c.1 p;
      li_unmark : ∀ p, (RcDel id r, p) ∈ c.2 → del_unmarked c.1 p }.
    Lemma linv_step c i : cinv c → linv c → linv (rc_step o c i).
    Proof.
      intros I L. destruct (rc_step_cases c i) as [->|(t & p & Hi & Hin & E & Hx)]; [done|]. rewrite E in *.
      pose proof (stay_out c t p I Hin) as Hout. pose proof (stay_unmarked c t p I Hin) as Hunm. constructor; cbn [fst snd] in *.
      - intros p' [[= <- Hp']|H]%Hx.
        + subst p'. pose proof (li_del _ L _ Hin) as Hd. pose proof (ci_pc _ I _ _ Hin) as [Hpc Hr].
          destruct p; try discriminate Hpc; cbn -[upd next_del].
          * destruct (cv_sids c.1 !! id); done.
          * done.
          * destruct (cv_rooms c.1 !! r0) eqn:E'; cbn -[next_del]; [assert (r0 = r) as -> by (apply Hr; left); done|].
            destruct rest; cbn; [|done]. assert (r0 = r) as -> by (apply Hr; left). unfold conc_members. rewrite E'. set_solver.
          * assert (r0 = r) as -> by (apply Hr; left). by apply (taken c (RcDel id r) q rest I Hin).
          * destruct (decide _); cbn -[next_del]; [done|]. destruct rest; done.
          * destruct rest; cbn; [|done]. by apply Hout.
          * done.
        + pose proof (li_del _ L _ H) as Hd. destruct p'; cbn in *; try done; try (by apply Hout). by apply still_same.
      - intros p' [[= <- Hp']|H]%Hx.
        + subst p'. pose proof (li_unmark _ L _ Hin) as Hd. pose proof (ci_pc _ I _ _ Hin) as [Hpc Hr].
          assert (∀ rest, r ∉ conc_rooms_of (rc_step1 o (RcDel id r) p c.1).2 id → del_unmarked (rc_step1 o (RcDel id r) p c.1).2 (next_del (RcDel id r) rest)) as Hnext by (by intros []).
          destruct p; try discriminate Hpc.
          * cbn. destruct (cv_sids c.1 !! id) eqn:E'; cbn; [done|]. unfold conc_rooms_of. rewrite E'. set_solver.
          * assert (r0 = r) as -> by (apply Hr; left). intros Hm. pose proof (still_same_sid c _ _ k I Hin Hd Hm) as E'. unfold conc_rooms_of in Hm. rewrite E' in Hm. cbn -[upd] in Hm.
            rewrite upd_same in Hm. apply elem_of_difference in Hm as [_ Hm]. by apply Hm, elem_of_singleton.
          * cbn -[next_del]. destruct (cv_rooms c.1 !! r0); [done|]. by apply Hnext.
          * cbn -[upd]. by apply Hunm.
          * cbn -[next_del]. destruct (decide _); [done|]. by apply Hnext.
          * cbn -[next_del]. by apply Hnext.
          * done.
        + pose proof (li_unmark _ L _ H) as Hd. destruct p'; cbn in *; try done; try (by apply Hunm). by apply still_same_sid.
    Qed.
    Lemma linv_run sched : linv (rc_run o g ts sched).
    Proof.
      induction sched as [|i sched IH] using rev_ind.
      - constructor; intros p ->%init_pc; done.
      - unfold rc_run. rewrite foldl_app. apply linv_step; [apply cinv_run|apply IH].
    Qed.

    (** DelAll *)
    Definition pending (s : cview) (p : rcpc) : Prop :=
      match p with
      | PLoad x rest => r = x ∨ r ∈ rest
      | PTake q x rest => (r = x ∧ (id ∈ conc_members s r → cv_rooms s !! r = Some q)) ∨ r ∈ rest
      | PLen _ _ rest | PDrop _ rest => r ∈ rest
      | _ => False
      end.
    Definition all_out (s : cview) (p : rcpc) : Prop :=
      match p with
      | PStart => True
      | PKeys k => id ∈ conc_members s r → cv_sids s !! id = Some k
      | p => pending s p ∨ id ∉ conc_members s r
      end.
    Context (Hnd : RcDel id r ∉ ts).
    Record dinv (c : rcconf) : Prop := {
      di_link : id ∈ conc_members c.1 r → r ∈ conc_rooms_of c.1 id;
      di_pc : ∀ p, (RcDelAll id, p) ∈ c.2 → all_out c.1 p;
      di_done : (RcDelAll id, PDone) ∈ c.2 → r ∉ conc_rooms_of c.1 id }.
    Lemma dinv_step c i : cinv c → dinv c → dinv (rc_step o c i).
    Proof.
      intros I D. destruct (rc_step_cases c i) as [->|(t & p & Hi & Hin & E & Hx)]; [done|]. rewrite E in *.
      pose proof (stay_out c t p I Hin) as Hout. pose proof (stay_unmarked c t p I Hin) as Hunm.
      assert (id ∈ conc_members (rc_step1 o t p c.1).2 r → id ∈ conc_members c.1 r) as Hback.
      { intros Hm. destruct (decide (id ∈ conc_members c.1 r)); [done|]. by apply Hout in n. }
      assert (id ∈ conc_members (rc_step1 o t p c.1).2 r → cv_sids (rc_step1 o t p c.1).2 !! id = cv_sids c.1 !! id) as Hsid.
      { intros Hm. pose proof (di_link _ D (Hback Hm)) as Hr. unfold conc_rooms_of in Hr. destruct (cv_sids c.1 !! id) as [k|] eqn:Ek; [|set_solver].
        destruct (keep_sid t p c.1 id k Ek) as [|[-> Hid]]; [done|]. exfalso. pose proof (ci_pc _ I _ _ Hin) as Hok.
        destruct t as [id' R|id' r'|id']; destruct Hok as [? _]; try done. cbn in Hid. subst id'.
        destruct (di_pc _ D _ Hin) as [[]|Hn]. by apply Hn, Hback. }
      constructor; cbn [fst snd] in *.
      - intros Hm. pose proof (di_link _ D (Hback Hm)) as Hr. unfold conc_rooms_of in Hr |- *. rewrite (Hsid Hm).
        destruct (cv_sids c.1 !! id) as [k|] eqn:Ek; [|set_solver].
        destruct (keep_srooms t p c.1 id k r Hr) as [|[[-> Hid]|]]; [done| |congruence]. exfalso.
        assert (t ∈ ts) as Ht. { rewrite <-(ci_threads _ I). by apply (elem_of_list_fmap_1 fst _ (t, PUnmark k r)). }
        pose proof (ci_pc _ I _ _ Hin) as Hok. destruct t as [id' R|id' r'|id']; destruct Hok as [? Hr']; try done. cbn in Hid. subst id'.
        assert (r = r') as <- by (apply Hr'; left). done.
      - intros p' [[= <- Hp']|H]%Hx.
        + subst p'. pose proof (di_pc _ D _ Hin) as Hd. pose proof (ci_pc _ I _ _ Hin) as [Hpc Hr].
          set (s' := (rc_step1 o (RcDelAll id) p c.1).2) in *.
          assert (∀ rest, r ∈ rest ∨ id ∉ conc_members s' r → all_out s' (next_del (RcDelAll id) rest)) as Hnext.
          { intros [|x rest] [H|H]; cbn; [by apply elem_of_nil in H|by right|left; by apply elem_of_cons in H|by right]. }
          destruct p; try discriminate Hpc; cbn -[upd next_del s'] in Hd |- *.
          * destruct (cv_sids c.1 !! id) as [k|] eqn:Ek; cbn -[s'].
            -- intros Hm. by rewrite (Hsid Hm).
            -- right. intros Hm. pose proof (di_link _ D (Hback Hm)) as Hr'. unfold conc_rooms_of in Hr'. rewrite Ek in Hr'. set_solver.
          * apply Hnext. destruct (decide (id ∈ conc_members s' r)) as [Hm|]; [left|by right]. apply order_elem; [done|].
            pose proof (di_link _ D (Hback Hm)) as Hr'. unfold conc_rooms_of in Hr'. by rewrite (Hd (Hback Hm)) in Hr'.
          * destruct (cv_rooms c.1 !! r0) eqn:E'; cbn -[next_del s'].
            -- destruct Hd as [[<-|Hd]|Hd]; [left; left; split; [done|]|left; by right|right; by apply Hout].
               intros Hm. destruct (keep_room (RcDelAll id) (PLoad r rest) c.1 r n E') as [|[? [=]]]; done.
            -- apply Hnext. destruct Hd as [[<-|Hd]|Hd]; [right|by left|right; by apply Hout]. apply Hout. unfold conc_members. rewrite E'. set_solver.
          * destruct Hd as [[[<- Hd]|Hd]|Hd]; [right|by left|right; by apply Hout]. by apply (taken c (RcDelAll id) q rest I Hin).
          * destruct (decide (cv_members c.1 r0 q = ∅)); cbn -[next_del s'].
            -- destruct Hd as [Hd|Hd]; [by left|right; by apply Hout].
            -- apply Hnext. destruct Hd as [Hd|Hd]; [by left|right; by apply Hout].
          * apply Hnext. destruct Hd as [Hd|Hd]; [by left|right; by apply Hout].
          * right. destruct Hd as [[]|Hd]. by apply Hout.
          * right. destruct Hd as [[]|Hd]. by apply Hout.
        + pose proof (di_pc _ D _ H) as Hd. destruct p'; cbn in *; try done; try (destruct Hd as [Hd|Hd]; [by left|right; by apply Hout]).
          * intros Hm. rewrite (Hsid Hm). auto.
          * destruct Hd as [[[<- Hd]|Hd]|Hd]; [left; left; split; [done|]; by apply still_same|left; by right|right; by apply Hout].
      - intros [[= <- Hp']|H]%Hx; [|apply Hunm; by apply (di_done _ D)].
        pose proof (ci_pc _ I _ _ Hin) as [Hpc Hr]. destruct p; try discriminate Hpc; cbn -[upd next_del] in Hp' |- *.
        + destruct (cv_sids c.1 !! id) as [k|] eqn:Ek; [discriminate Hp'|]. cbn. unfold conc_rooms_of. rewrite Ek. set_solver.
        + destruct (o _); discriminate Hp'.
        + destruct (cv_rooms c.1 !! r0); [discriminate Hp'|]. destruct rest; discriminate Hp'.
        + discriminate Hp'.
        + destruct (decide _); [discriminate Hp'|]. destruct rest; discriminate Hp'.
        + destruct rest; discriminate Hp'.
        + unfold conc_rooms_of. cbn. rewrite lookup_delete. set_solver.
        + apply Hunm. by apply (di_done _ D).
    Qed.
    Lemma dinv_run sched : dinv (rc_run o g ts sched).
    Proof.
      induction sched as [|i sched IH] using rev_ind.
      - constructor; cbn [fst snd rc_run foldl].
        + unfold conc_rooms_of, conc_members. cbn. rewrite !lookup_fmap. intros H.
          assert (id ∈ members_of g r) as Hm. { destruct (rg_rooms g !! r); cbn in H; [done|set_solver]. }
          apply Hag in Hm as Hm'. unfold rooms_of in Hm'. destruct (rg_sids g !! id) eqn:E2; [|set_solver]. cbn. unfold rooms_of. by rewrite E2.
        + intros p ->%init_pc. done.
        + intros H%init_pc. done.
      - unfold rc_run. rewrite foldl_app. apply dinv_step; [apply cinv_run|apply IH].
    Qed.
  End leave.
  Lemma rcall_eq_dec : EqDecision rcall.
  Proof. solve_decision. Qed.
  Lemma left_ sched id r : agreeing g → leaves ts id r → ¬ joins ts id r → returned (rc_run o g ts sched) →
    id ∉ conc_members (rc_run o g ts sched).1 r ∧ r ∉ conc_rooms_of (rc_run o g ts sched).1 id.
  Proof.
    intros Hag Hl Hno Hret. pose proof rcall_eq_dec.
    destruct (decide (RcDel id r ∈ ts)) as [Hd|Hd].
    - destruct (call_of sched _ Hd) as (p & Hp). rewrite (Hret _ _ Hp) in Hp.
      split; [by apply (li_del id r _ (linv_run id r Hag Hno sched) PDone)|by apply (li_unmark id r _ (linv_run id r Hag Hno sched) PDone)].
    - destruct Hl as [|Hl]; [done|]. destruct (call_of sched _ Hl) as (p & Hp). rewrite (Hret _ _ Hp) in Hp.
      pose proof (dinv_run id r Hag Hno Hd sched) as D. split; [by destruct (di_pc id r _ D PDone Hp) as [[]|]|by apply (di_done id r _ D)].
  Qed.
End proofs.

(** Checking concrete tables and configurations. *)
Lemma agreeing_of_maps g : (map_to_list (rg_rooms g) ≫= λ p, (λ id, (id, p.1)) <$> elements p.2) ≡ₚ (map_to_list (rg_sids g) ≫= λ p, (λ r, (p.1, r)) <$> elements p.2) → agreeing g.
Proof.
  intros H id r.
  assert ((id, r) ∈ (map_to_list (rg_rooms g) ≫= λ p, (λ id, (id, p.1)) <$> elements p.2) ↔ id ∈ members_of g r) as <-.
  { rewrite elem_of_list_bind. unfold members_of. split.
    - intros ([r' X] & (id' & [= -> ->] & Hid)%elem_of_list_fmap & Hm%elem_of_map_to_list). cbn in *. rewrite Hm. by apply elem_of_elements.
    - destruct (rg_rooms g !! r) as [X|] eqn:E; cbn; [|set_solver]. intros Hid. exists (r, X). split; [|by apply elem_of_map_to_list].
      apply elem_of_list_fmap. exists id. split; [done|]. by apply elem_of_elements. }
  rewrite H, elem_of_list_bind. unfold rooms_of. split.
  - intros ([id' X] & (r' & [= -> ->] & Hid)%elem_of_list_fmap & Hm%elem_of_map_to_list). cbn in *. rewrite Hm. by apply elem_of_elements.
  - destruct (rg_sids g !! id) as [X|] eqn:E; cbn; [|set_solver]. intros Hid. exists (id, X). split; [|by apply elem_of_map_to_list].
    apply elem_of_list_fmap. exists r. split; [done|]. by apply elem_of_elements.
Qed.
Lemma returned_all c : forallb (λ x, match x.2 with PDone => true | _ => false end) c.2 = true → returned c.
Proof. rewrite forallb_forall. intros H t p Hin. apply elem_of_list_In in Hin. specialize (H _ Hin). by destruct p. Qed.

