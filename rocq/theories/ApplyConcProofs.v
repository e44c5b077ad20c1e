(** Proofs about a broadcast concurrent with joins and leaves. *)
From Verif Require Import Base Rooms RoomsConc RoomsConcSpec RoomsConcProofs ApplyConc ApplyConcSpec GoTypes Adapter AdapterSpec AdapterProofs.

Lemma next_id_cases keys todo ids exc :
  (next_id keys todo ids exc = next_room todo ids exc ∧ ∀ k, k ∈ keys → k ∈ ids ∨ k ∈ exc) ∨
  ∃ k1 id k2, keys = k1 ++ id :: k2 ∧ next_id keys todo ids exc = ALook id k2 todo ids exc ∧ id ∉ ids ∧ id ∉ exc ∧ ∀ k, k ∈ k1 → k ∈ ids ∨ k ∈ exc.
Proof.
  induction keys as [|x keys IH]; cbn [next_id].
  - left. split; [done|]. by intros ? ?%elem_of_nil.
  - destruct (decide (x ∈ ids ∨ x ∈ exc)) as [Hx|Hx].
    + destruct IH as [[-> IH]|(k1 & id & k2 & -> & -> & ? & ? & IH)].
      * left. split; [done|]. intros k [->|?]%elem_of_cons; auto.
      * right. exists (x :: k1), id, k2. split_and!; [done..|]. intros k [->|?]%elem_of_cons; auto.
    + right. exists [], x, keys. split_and!; [done..|tauto|tauto|]. by intros ? ?%elem_of_nil.
Qed.

Lemma prefix_snoc_inv {A} (l ls : list A) x : l `prefix_of` ls ++ [x] → l `prefix_of` ls ∨ l = ls ++ [x].
Proof.
  intros [k Hk]. destruct k as [|y k _] using rev_ind.
  - right. by rewrite app_nil_r in Hk.
  - left. rewrite app_assoc in Hk. apply app_inj_tail in Hk as [-> _]. by exists k.
Qed.

Section proofs.
  Context (a : acall) (Hok : acall_ok a).
  Notation step := (a_step (al_rooms a) (al_except a) (al_orm a) (al_oex a) (al_oid a) (al_o a)).
  Notation step1 := (a_step1 (al_rooms a) (al_except a) (al_orm a) (al_oex a) (al_oid a)).

  Lemma after_snoc l x : after a (l ++ [x]) = step (after a l) x.
  Proof. unfold after, a_run. by rewrite foldl_app. Qed.
  Lemma always_snoc l x P : always a (l ++ [x]) P ↔ always a l P ∧ P (after a (l ++ [x])).
  Proof.
    split.
    - intros H. split; [|by apply H]. intros k Hk. apply H. etrans; [done|by apply prefix_app_r].
    - intros [H Hx] k [Hk| ->]%prefix_snoc_inv; [by apply H|done].
  Qed.
  Lemma always_now l (P : aconf → Prop) : always a l P → P (after a l).
  Proof. intros H. by apply H. Qed.
  Lemma sometime_snoc l x P : sometime a (l ++ [x]) P ↔ sometime a l P ∨ P (after a (l ++ [x])).
  Proof.
    split.
    - intros (k & [Hk| ->]%prefix_snoc_inv & H); [left; by exists k|by right].
    - intros [(k & Hk & H)|H]; [exists k; split; [by apply prefix_app_r|done]|by exists (l ++ [x])].
  Qed.
  Lemma sometime_now l (P : aconf → Prop) : P (after a l) → sometime a l P.
  Proof. intros H. by exists l. Qed.

  (** The rooms evolve as in [RoomsConc.v]. *)
  Lemma rooms_run l : ∃ g ts sched, ac_rooms (after a l) = rc_run (al_o a) g ts sched.
  Proof.
    destruct Hok as (_ & _ & _ & _ & g & ts & sched & E). exists g, ts.
    induction l as [|x l [sched' IH]] using rev_ind; [by exists sched|].
    rewrite after_snoc. destruct x as [i|i b|k]; cbn [a_step ac_rooms]; [|by exists sched'..].
    exists (sched' ++ [i]). unfold rc_run in *. by rewrite foldl_app, IH.
  Qed.

  (** *** At most once *)
  Definition pc_once (hits : list sid) (p : apc) : Prop :=
    match p with
    | AStart | AExcLoad _ _ _ | AExcKeys _ _ _ _ | ABegin _ => hits = []
    | ALoad _ _ ids _ | AKeys _ _ _ ids _ => ∀ x, x ∈ hits ↔ x ∈ ids
    | ALook id _ _ ids exc | ACall id _ _ ids exc => (∀ x, x ∈ hits ↔ x ∈ ids) ∧ id ∉ ids ∧ id ∉ exc
    | ARange rg _ => ∀ x, x ∈ hits → x ∈ rg_visited rg
    | ARLook id rg exc | ARCall id rg exc => (∀ x, x ∈ hits → x ∈ rg_visited rg) ∧ id ∈ rg_visited rg ∧ id ∉ hits ∧ id ∉ exc
    | ADone => True
    end.
  Lemma once_next_exc hits todo exc : hits = [] → pc_once hits (next_exc todo exc).
  Proof. by destruct todo. Qed.
  Lemma once_next_room hits todo ids exc : (∀ x, x ∈ hits ↔ x ∈ ids) → pc_once hits (next_room todo ids exc).
  Proof. by destruct todo. Qed.
  Lemma once_next_id hits keys todo ids exc : (∀ x, x ∈ hits ↔ x ∈ ids) → pc_once hits (next_id keys todo ids exc).
  Proof.
    intros H. destruct (next_id_cases keys todo ids exc) as [[-> _]|(k1 & id & k2 & _ & -> & ? & ? & _)]; [by apply once_next_room|done].
  Qed.
  Lemma once_sees s hits p : pc_once hits p → pc_once hits (range_sees s p).
  Proof. by destruct p. Qed.
  Lemma once_move k p s socks hits : NoDup hits → pc_once hits p →
    NoDup (hits ++ (step1 k p s socks).2) ∧ pc_once (hits ++ (step1 k p s socks).2) (step1 k p s socks).1.
  Proof.
    intros Hn Hp.
    assert (∀ id, id ∉ hits → NoDup (hits ++ [id])) as Hsnoc.
    { intros id Hid. apply NoDup_app. split_and!; [done| |apply NoDup_singleton]. by intros x Hx ->%elem_of_list_singleton. }
    destruct p; cbn [a_step1 fst snd pc_once] in *.
    all: try (rewrite app_nil_r; split; [done|]).
    - by apply once_next_exc.
    - destruct (cv_rooms s !! r); [done|by apply once_next_exc].
    - by apply once_next_exc.
    - subst. destruct (decide _); cbn; [by intros ? ?%elem_of_nil|]. apply once_next_room. set_solver.
    - destruct (cv_rooms s !! r); [done|by apply once_next_room].
    - by apply once_next_id.
    - destruct Hp as [Hp ?]. destruct (decide _); [done|]. by apply once_next_id.
    - destruct Hp as (Hp & Hid & _). split; [apply Hsnoc; by rewrite Hp|]. apply once_next_id. set_solver.
    - destruct k as [id|]; [|destruct (decide (rg_stable rg ⊆ rg_visited rg)); [done|]; cbn; exact Hp].
      destruct (decide _) as [[_ Hv]|]; [|done]. destruct (decide _); cbn; [set_solver|]. set_solver.
    - destruct (decide _); [done|]. cbn. tauto.
    - destruct Hp as (Hp & Hv & Hid & _). split; [by apply Hsnoc|]. set_solver.
    - done.
  Qed.
  Lemma once_inv ls : NoDup (ac_hits (after a ls)) ∧ pc_once (ac_hits (after a ls)) (ac_pc (after a ls)).
  Proof.
    induction ls as [|x l [IHn IHp]] using rev_ind; [split; [apply NoDup_nil_2|done]|].
    rewrite after_snoc. destruct x as [i|i b|k]; cbn [a_step ac_hits ac_pc].
    - split; [done|by apply once_sees].
    - done.
    - by apply once_move.
  Qed.
  Lemma at_most_once ls : NoDup (ac_hits (after a ls)).
  Proof. apply once_inv. Qed.
  Lemma hits_mono l ls : l `prefix_of` ls → ∀ id, id ∈ ac_hits (after a l) → id ∈ ac_hits (after a ls).
  Proof.
    intros [k ->] id H. induction k as [|x k IH] using rev_ind; [by rewrite app_nil_r|].
    rewrite app_assoc, after_snoc. destruct x; cbn [a_step ac_hits]; [done..|]. apply elem_of_app. by left.
  Qed.

  (** *** What a change of the rooms does to the set of one room *)
  Lemma same_ptr l i r q id : cv_rooms (ac_rooms (after a l)).1 !! r = Some q → id ∈ conc_members (rc_step (al_o a) (ac_rooms (after a l)) i).1 r →
    cv_rooms (rc_step (al_o a) (ac_rooms (after a l)) i).1 !! r = Some q.
  Proof.
    intros Hq Hm. destruct (rc_step_cases (al_o a) (ac_rooms (after a l)) i) as [->|(t & p & _ & _ & E & _)]; [done|].
    rewrite E in *. cbn [fst] in *. unfold conc_members in Hm.
    destruct (cv_rooms (rc_step1 _ t p _).2 !! r) as [q'|] eqn:Eq; [|set_solver].
    destruct (step_room _ _ _ _ _ _ Eq) as [?|[Hn _]]; congruence.
  Qed.
  Lemma joining_step rc i id r : is_joining id r (rc_step (al_o a) rc i) → is_joining id r rc.
  Proof.
    destruct (rc_step_cases (al_o a) rc i) as [->|(t & p & Hi & Hin & E & Hx)]; [done|].
    intros (R & p' & H & HR & Hp'). destruct (Hx _ H) as [[= <- ->]|?]; [|by exists R, p'].
    exists R, p. split_and!; [done..|]. intros ->. by apply Hp'.
  Qed.
  (** Without a call that makes it join, a socket does not enter a set. *)
  Lemma stays_out g ts sched i id r q : let rc := rc_run (al_o a) g ts sched in ¬ is_joining id r rc →
    id ∈ cv_members (rc_step (al_o a) rc i).1 r q → id ∈ cv_members rc.1 r q.
  Proof.
    intros rc Hj. destruct (rc_step_cases (al_o a) rc i) as [->|(t & p & Hi & Hin & E & Hx)]; [done|].
    rewrite E. cbn [fst]. intros H. apply step_members in H; [|apply Hok]. destruct H as [?|(k0 & rest & -> & Hid)]; [done|]. exfalso. apply Hj.
    destruct Hok as (_ & _ & _ & Ho & _). pose proof (ci_pc _ _ _ (cinv_run _ Ho g ts sched) _ _ Hin) as Hpc.
    destruct t as [id' R|id' r'|id']; destruct Hpc as [Hp Hr]; try done. cbn in Hid. subst id'. exists R, (PAdd k0 q r rest). split_and!; [done| |done].
    apply Hr. left.
  Qed.

  (** *** A socket that is never in an excluded room is not excluded *)
  Section never.
    Context (id : sid) (Hout : ∀ e, e ∈ al_except a → ¬ is_member id e (after a []) ∧ ¬ is_joining id e (al_start a)).
    Definition pc_exc (s : cview) (p : apc) : Prop :=
      match p with
      | AStart | ADone => True
      | AExcLoad r todo exc => id ∉ exc ∧ ∀ e, e ∈ r :: todo → e ∈ al_except a
      | AExcKeys r q todo exc => id ∉ exc ∧ (∀ e, e ∈ r :: todo → e ∈ al_except a) ∧ id ∉ cv_members s r q
      | ABegin exc | ALoad _ _ _ exc | AKeys _ _ _ _ exc | ALook _ _ _ _ exc | ACall _ _ _ _ exc | ARange _ exc | ARLook _ _ exc | ARCall _ _ exc => id ∉ exc
      end.
    Record xinv (c : aconf) : Prop := {
      xi_out : ∀ e, e ∈ al_except a → id ∉ conc_members (ac_rooms c).1 e ∧ ¬ is_joining id e (ac_rooms c);
      xi_pc : pc_exc (ac_rooms c).1 (ac_pc c) }.
    Lemma exc_next_exc s todo exc : id ∉ exc → (∀ e, e ∈ todo → e ∈ al_except a) → pc_exc s (next_exc todo exc).
    Proof. destruct todo; done. Qed.
    Lemma exc_next_room s todo ids exc : id ∉ exc → pc_exc s (next_room todo ids exc).
    Proof. destruct todo; done. Qed.
    Lemma exc_next_id s keys todo ids exc : id ∉ exc → pc_exc s (next_id keys todo ids exc).
    Proof. intros H. destruct (next_id_cases keys todo ids exc) as [[-> _]|(k1 & id' & k2 & _ & -> & _)]; [by apply exc_next_room|done]. Qed.
    Lemma xinv_run ls : xinv (after a ls).
    Proof.
      induction ls as [|x l [IHo IHp]] using rev_ind.
      - split; [|done]. intros e He. apply Hout in He. done.
      - rewrite after_snoc. destruct x as [i|i b|k]; cbn [a_step].
        + destruct (rooms_run l) as (g & ts & sched & E).
          assert (∀ e q, e ∈ al_except a → id ∉ cv_members (ac_rooms (after a l)).1 e q → id ∉ cv_members (rc_step (al_o a) (ac_rooms (after a l)) i).1 e q) as Hkeep.
          { intros e q He Hq Hin. apply Hq. rewrite E in *. by eapply stays_out in Hin; [|apply IHo]. }
          split; cbn [ac_rooms ac_pc].
          * intros e He. split; [|intros ?%joining_step; by eapply IHo].
            unfold conc_members. destruct (cv_rooms _ !! e) as [q|] eqn:Eq; [|set_solver].
            destruct (rc_step_cases (al_o a) (ac_rooms (after a l)) i) as [Es|(t & p & _ & _ & Es & _)].
            { rewrite Es in *. pose proof (proj1 (IHo e He)) as H. unfold conc_members in H. by rewrite Eq in H. }
            pose proof Eq as Eq2. rewrite Es in Eq2. cbn [fst] in Eq2. destruct (step_room _ _ _ _ _ _ Eq2) as [Hq|[_ Hq]].
            -- apply Hkeep; [done|]. pose proof (proj1 (IHo e He)) as H. unfold conc_members in H. by rewrite Hq in H.
            -- rewrite Es. cbn [fst]. rewrite Hq. set_solver.
          * destruct (ac_pc (after a l)); try done. cbn [range_sees pc_exc] in *. destruct IHp as (? & Hin & Hm). split_and!; [done..|].
            apply Hkeep; [|done]. apply Hin. left.
        + by split.
        + split; [done|]. cbn [ac_rooms ac_pc]. destruct Hok as (_ & Hoe & _).
          destruct (ac_pc (after a l)) eqn:Epc; cbn [a_step1 fst pc_exc] in *.
          * apply exc_next_exc; [set_solver|]. intros e He. by apply order_elem in He.
          * destruct IHp as [? Hin]. destruct (cv_rooms _ !! r) as [q|] eqn:Eq.
            -- cbn. split_and!; [done..|]. pose proof (proj1 (IHo r (Hin r (elem_of_list_here _ _)))) as Hc. unfold conc_members in Hc. by rewrite Eq in Hc.
            -- apply exc_next_exc; [done|]. intros e He. apply Hin. by right.
          * destruct IHp as (? & Hin & ?). apply exc_next_exc; [set_solver|]. intros e He. apply Hin. by right.
          * destruct (decide _); [done|]. by apply exc_next_room.
          * destruct (cv_rooms _ !! r); [done|]. by apply exc_next_room.
          * by apply exc_next_id.
          * destruct (decide _); [done|]. by apply exc_next_id.
          * by apply exc_next_id.
          * destruct k; [|by destruct (decide _)]. destruct (decide _); [|done]. by destruct (decide _).
          * by destruct (decide _).
          * done.
          * done.
    Qed.

    (** A socket that is in a targeted room all the time is reached. *)
    Definition pc_target (r : room) (s : cview) (p : apc) : Prop :=
      match p with
      | ALoad r' todo ids _ => id ∈ ids ∨ r ∈ r' :: todo
      | AKeys r' q todo ids _ => id ∈ ids ∨ r ∈ todo ∨ (r' = r ∧ cv_rooms s !! r = Some q)
      | ALook i keys todo ids _ | ACall i keys todo ids _ => id ∈ ids ∨ r ∈ todo ∨ id ∈ i :: keys
      | ARange _ _ | ARLook _ _ _ | ARCall _ _ _ => False
      | _ => True
      end.
    Lemma target_next_room r s todo ids exc (hits : list sid) : (id ∈ ids ∨ r ∈ todo) → (∀ x, x ∈ hits ↔ x ∈ ids) →
      pc_target r s (next_room todo ids exc) ∧ (next_room todo ids exc = ADone → id ∈ hits).
    Proof. intros H Hh. destruct todo; cbn; [|done]. split; [done|]. intros _. apply Hh. destruct H as [?|H]; [done|]. by apply elem_of_nil in H. Qed.
    Lemma target_next_id r s keys todo ids exc (hits : list sid) : (id ∈ ids ∨ r ∈ todo ∨ id ∈ keys) → id ∉ exc → (∀ x, x ∈ hits ↔ x ∈ ids) →
      pc_target r s (next_id keys todo ids exc) ∧ (next_id keys todo ids exc = ADone → id ∈ hits).
    Proof.
      intros H Hx Hh. destruct (next_id_cases keys todo ids exc) as [[-> Hk]|(k1 & i & k2 & -> & -> & Hi & Hie & Hk)].
      - apply target_next_room; [|done]. destruct H as [?|[?|H]]; [by left|by right|]. apply Hk in H as [?|?]; [by left|done].
      - split; [|done]. cbn. destruct H as [?|[?|[H|H]%elem_of_app]]; [by left|by right; left| |by right; right].
        apply Hk in H as [?|?]; [by left|done].
    Qed.
    Lemma reached_room ls r : r ∈ al_rooms a → always a ls (is_listed id) → always a ls (is_member id r) → finished (after a ls) → id ∈ ac_hits (after a ls).
    Proof.
      intros Hr Hl Hm. unfold finished.
      enough (pc_target r (ac_rooms (after a ls)).1 (ac_pc (after a ls)) ∧ (ac_pc (after a ls) = ADone → id ∈ ac_hits (after a ls))) as [_ H] by exact H.
      induction ls as [|x l IH] using rev_ind; [done|].
      apply always_snoc in Hl as [Hl Hl']. apply always_snoc in Hm as [Hm Hm']. destruct (IH Hl Hm) as [IHt IHd]. clear IH.
      destruct (once_inv l) as [_ Honce]. destruct (xinv_run l) as [_ Hexc].
      apply always_now in Hl. apply always_now in Hm. unfold is_listed, is_member in *.
      rewrite after_snoc in *. destruct x as [i|i b|k]; cbn [a_step ac_rooms ac_pc ac_hits] in *.
      - destruct (ac_pc (after a l)) as [| | | | |r' q todo ids exc| | | | | |]; cbn [range_sees pc_target] in *; try done.
        split; [|done]. destruct IHt as [?|[?|[-> Hq]]]; [by left|by right; left|]. right; right. split; [done|]. by eapply same_ptr.
      - done.
      - destruct Hok as (Hom & _ & Hoi & _). destruct (ac_pc (after a l)) eqn:Epc; cbn [a_step1 fst snd pc_target pc_once pc_exc] in *; rewrite ?app_nil_r.
        + by destruct (al_oex a (al_except a)).
        + destruct (cv_rooms _ !! r0); [done|]. by destruct todo.
        + by destruct todo.
        + destruct (decide _) as [He|]; [set_solver|]. rewrite Honce. apply target_next_room; [|set_solver]. right. by apply order_elem.
        + destruct (cv_rooms _ !! r0) as [q|] eqn:Eq.
          * split; [|done]. cbn. destruct IHt as [?|[->|?]%elem_of_cons]; [by left|by right; right|by right; left].
          * apply target_next_room; [|done]. destruct IHt as [?|[->|?]%elem_of_cons]; [by left| |by right].
            exfalso. unfold conc_members in Hm. rewrite Eq in Hm. set_solver.
        + apply target_next_id; [|done..]. destruct IHt as [?|[?|[-> Hq]]]; [by left|by right; left|]. right; right.
          apply order_elem; [done|]. unfold conc_members in Hm. by rewrite Hq in Hm.
        + destruct Honce as (Hh & _). destruct (decide _) as [|Hn]; [done|]. apply target_next_id; [|done..].
          destruct IHt as [?|[?|[->|?]%elem_of_cons]]; [by left|by right; left|done|by right; right].
        + destruct Honce as (Hh & _). apply target_next_id; [|done|set_solver].
          destruct IHt as [?|[?|[->|?]%elem_of_cons]]; [left; set_solver|by right; left|left; set_solver|by right; right].
        + done.
        + done.
        + done.
        + auto.
    Qed.

    (** Without rooms: a socket that the adapter knows all the time is reached. *)
    Definition pc_known (hits : list sid) (p : apc) : Prop :=
      match p with
      | ALoad _ _ _ _ | AKeys _ _ _ _ _ | ALook _ _ _ _ _ | ACall _ _ _ _ _ => False
      | ARange rg _ => id ∈ rg_stable rg ∧ (id ∈ rg_visited rg → id ∈ hits)
      | ARLook i rg _ | ARCall i rg _ => id ∈ rg_stable rg ∧ (id ∈ rg_visited rg → id = i ∨ id ∈ hits)
      | ADone => id ∈ hits
      | _ => True
      end.
    Lemma reached_all ls : al_rooms a = ∅ → always a ls (is_listed id) → always a ls (is_known id) → finished (after a ls) → id ∈ ac_hits (after a ls).
    Proof.
      intros Hr Hl Hk Hf.
      enough (pc_known (ac_hits (after a ls)) (ac_pc (after a ls))) as H. { unfold finished in Hf. by rewrite Hf in H. }
      clear Hf. induction ls as [|x l IH] using rev_ind; [done|].
      apply always_snoc in Hl as [Hl Hl']. apply always_snoc in Hk as [Hk Hk']. specialize (IH Hl Hk).
      destruct (xinv_run l) as [_ Hexc].
      apply always_now in Hl. apply always_now in Hk. unfold is_listed, is_known in *.
      rewrite after_snoc in *. destruct x as [i|i b|k]; cbn [a_step ac_rooms ac_pc ac_hits] in *.
      - apply elem_of_dom in Hk'. destruct (ac_pc (after a l)); cbn [range_sees pc_known rg_stable rg_visited] in *; try done.
        all: split; [|tauto]; apply elem_of_intersection; tauto.
      - done.
      - apply elem_of_dom in Hk.
        destruct (ac_pc (after a l)) eqn:Epc; cbn [a_step1 fst snd pc_known pc_exc] in *; rewrite ?app_nil_r.
        + by destruct (al_oex a (al_except a)).
        + destruct (cv_rooms _ !! r); [done|]. by destruct todo.
        + by destruct todo.
        + rewrite decide_True by done. cbn. set_solver.
        + done.
        + done.
        + done.
        + done.
        + destruct IH as [Hs Hv]. destruct k as [i|].
          * destruct (decide (i ∈ rg_seen rg ∧ i ∉ rg_visited rg)) as [[_ ?]|]; [|done].
            destruct (decide (i ∈ exc)); cbn [pc_known range_visit rg_stable rg_visited]; (split; [done|]);
              intros [->%elem_of_singleton|?]%elem_of_union; auto; done.
          * destruct (decide (rg_stable rg ⊆ rg_visited rg)) as [Hsub|]; [|done]. cbn. auto.
        + destruct IH as [Hs Hv]. destruct (decide (id0 ∈ _)) as [|Hn]; [done|]. cbn. split; [done|]. intros [->|?]%Hv; done.
        + destruct IH as [Hs Hv]. split; [done|]. intros [->|?]%Hv; apply elem_of_app; [right; by apply elem_of_list_singleton|by left].
        + done.
    Qed.
  End never.

  (** *** A socket that is in an excluded room all the time is not reached *)
  Definition pc_excluded (id : sid) (e : room) (s : cview) (p : apc) : Prop :=
    match p with
    | AExcLoad r todo exc => id ∈ exc ∨ e ∈ r :: todo
    | AExcKeys r q todo exc => id ∈ exc ∨ e ∈ todo ∨ (r = e ∧ cv_rooms s !! e = Some q)
    | ABegin exc | ALoad _ _ _ exc | AKeys _ _ _ _ exc | ALook _ _ _ _ exc | ACall _ _ _ _ exc | ARange _ exc | ARLook _ _ exc | ARCall _ _ exc => id ∈ exc
    | _ => True
    end.
  Lemma excluded_next_exc id e s todo exc : id ∈ exc ∨ e ∈ todo → pc_excluded id e s (next_exc todo exc).
  Proof. destruct todo; [|done]. intros [?|H]; [done|]. by apply elem_of_nil in H. Qed.
  Lemma excluded_next_room id e s todo ids exc : id ∈ exc → pc_excluded id e s (next_room todo ids exc).
  Proof. by destruct todo. Qed.
  Lemma excluded_next_id id e s keys todo ids exc : id ∈ exc → pc_excluded id e s (next_id keys todo ids exc).
  Proof. intros H. destruct (next_id_cases keys todo ids exc) as [[-> _]|(k1 & i & k2 & _ & -> & _)]; [by apply excluded_next_room|done]. Qed.
  Lemma excluded_missed ls id e : e ∈ al_except a → always a ls (is_member id e) → id ∉ ac_hits (after a ls).
  Proof.
    intros He Hm.
    enough (pc_excluded id e (ac_rooms (after a ls)).1 (ac_pc (after a ls)) ∧ id ∉ ac_hits (after a ls)) as [_ H] by exact H.
    induction ls as [|x l IH] using rev_ind; [split; [done|]; apply not_elem_of_nil|].
    apply always_snoc in Hm as [Hm Hm']. destruct (IH Hm) as [IHe IHh]. clear IH.
    destruct (once_inv l) as [_ Honce]. apply always_now in Hm. unfold is_member in *.
    rewrite after_snoc in *. destruct x as [i|i b|k]; cbn [a_step ac_rooms ac_pc ac_hits] in *.
    - split; [|done]. destruct (ac_pc (after a l)); cbn [range_sees pc_excluded] in *; try done.
      destruct IHe as [?|[?|[-> Hq]]]; [by left|by right; left|]. right; right. split; [done|]. by eapply same_ptr.
    - done.
    - destruct Hok as (_ & Hoe & _). destruct (ac_pc (after a l)) eqn:Epc; cbn [a_step1 fst snd pc_excluded pc_once] in *; rewrite ?app_nil_r.
      all: try (split; [|done]).
      + apply excluded_next_exc. right. by apply order_elem.
      + destruct (cv_rooms _ !! r) as [q|] eqn:Eq; cbn.
        * destruct IHe as [?|[->|?]%elem_of_cons]; [by left|by right; right|by right; left].
        * apply excluded_next_exc. destruct IHe as [?|[->|?]%elem_of_cons]; [by left| |by right].
          exfalso. unfold conc_members in Hm. rewrite Eq in Hm. set_solver.
      + apply excluded_next_exc. destruct IHe as [?|[?|[-> Hq]]]; [left; set_solver|by right|].
        left. apply elem_of_union. right. unfold conc_members in Hm. by rewrite Hq in Hm.
      + destruct (decide _); [done|]. by apply excluded_next_room.
      + destruct (cv_rooms _ !! r); [done|]. by apply excluded_next_room.
      + by apply excluded_next_id.
      + destruct (decide _); [done|]. by apply excluded_next_id.
      + split; [by apply excluded_next_id|]. destruct Honce as (_ & _ & Hx). rewrite not_elem_of_app. split; [done|].
        intros ->%elem_of_list_singleton. done.
      + destruct k; [|by destruct (decide _)]. destruct (decide _); [|done]. by destruct (decide _).
      + by destruct (decide _).
      + destruct Honce as (_ & _ & _ & Hx). split; [done|]. rewrite not_elem_of_app. split; [done|]. intros ->%elem_of_list_singleton. done.
      + done.
  Qed.

  (** *** Only sockets that could be selected *)
  Lemma joining_start l id r : is_joining id r (ac_rooms (after a l)) → is_joining id r (al_start a).
  Proof.
    induction l as [|x l IH] using rev_ind; [done|]. rewrite after_snoc. destruct x; cbn [a_step ac_rooms]; [|done..].
    intros ?%joining_step. auto.
  Qed.
  Lemma sometime_mono l ls P : l `prefix_of` ls → sometime a l P → sometime a ls P.
  Proof. intros Hl (k & Hk & H). exists k. split; [by etrans|done]. Qed.
  Definition room_source (l : list alabel) (r : room) (x : sid) : Prop := sometime a l (is_member x r) ∨ is_joining x r (al_start a).
  Definition source_of (l : list alabel) (x : sid) : Prop :=
    if decide (al_rooms a = ∅) then sometime a l (is_known x) else ∃ r, r ∈ al_rooms a ∧ room_source l r x.
  Definition pc_source (l : list alabel) (s : cview) (p : apc) : Prop :=
    match p with
    | ALoad r todo _ _ => ∀ r', r' ∈ r :: todo → r' ∈ al_rooms a
    | AKeys r q todo _ _ => (∀ r', r' ∈ r :: todo → r' ∈ al_rooms a) ∧ ∀ x, x ∈ cv_members s r q → room_source l r x
    | ALook i keys todo _ _ => (∀ r', r' ∈ todo → r' ∈ al_rooms a) ∧ ∀ x, x ∈ i :: keys → source_of l x
    | ACall i keys todo _ _ => (∀ r', r' ∈ todo → r' ∈ al_rooms a) ∧ (∀ x, x ∈ i :: keys → source_of l x) ∧ sometime a l (is_listed i)
    | ARange rg _ => al_rooms a = ∅ ∧ ∀ x, x ∈ rg_seen rg → sometime a l (is_known x)
    | ARLook i rg _ => al_rooms a = ∅ ∧ (∀ x, x ∈ rg_seen rg → sometime a l (is_known x)) ∧ i ∈ rg_seen rg
    | ARCall i rg _ => al_rooms a = ∅ ∧ (∀ x, x ∈ rg_seen rg → sometime a l (is_known x)) ∧ i ∈ rg_seen rg ∧ sometime a l (is_listed i)
    | _ => True
    end.
  Lemma source_mono l ls x : l `prefix_of` ls → source_of l x → source_of ls x.
  Proof.
    intros Hl. unfold source_of. destruct (decide _); [by apply sometime_mono|].
    intros (r & Hr & [H|H]); exists r; (split; [done|]); [left; by eapply sometime_mono|by right].
  Qed.
  Lemma source_next_room l s todo ids exc : (∀ r', r' ∈ todo → r' ∈ al_rooms a) → pc_source l s (next_room todo ids exc).
  Proof. by destruct todo. Qed.
  Lemma source_next_id l s keys todo ids exc : (∀ r', r' ∈ todo → r' ∈ al_rooms a) → (∀ x, x ∈ keys → source_of l x) → pc_source l s (next_id keys todo ids exc).
  Proof.
    intros H Hk. destruct (next_id_cases keys todo ids exc) as [[-> _]|(k1 & i & k2 & -> & -> & _)]; [by apply source_next_room|].
    split; [done|]. intros x Hx. apply Hk, elem_of_app. by right.
  Qed.
  Lemma sources l : pc_source l (ac_rooms (after a l)).1 (ac_pc (after a l)) ∧
    ∀ x, x ∈ ac_hits (after a l) → source_of l x ∧ sometime a l (is_listed x).
  Proof.
    induction l as [|y l [IHp IHh]] using rev_ind; [split; [done|]; by intros ? ?%elem_of_nil|].
    assert (l `prefix_of` l ++ [y]) as Hpre by (by apply prefix_app_r).
    assert (∀ x, source_of l x → source_of (l ++ [y]) x) as Hsm by (intros x; by apply source_mono).
    assert (∀ P, sometime a l P → sometime a (l ++ [y]) P) as Htm by (intros P; by apply sometime_mono).
    assert (∀ x, x ∈ ac_hits (after a l) → source_of (l ++ [y]) x ∧ sometime a (l ++ [y]) (is_listed x)) as IHh'.
    { intros x Hx. destruct (IHh x Hx). auto. }
    clear IHh. destruct y as [i|i b|k].
    - split; [|rewrite after_snoc; exact IHh'].
      assert (∀ x, x ∈ dom (cv_sids (ac_rooms (after a (l ++ [ARoom i]))).1) → sometime a (l ++ [ARoom i]) (is_known x)) as Hnew.
      { intros x Hx%elem_of_dom. by apply sometime_now. }
      rewrite after_snoc in *. cbn [a_step ac_rooms ac_pc ac_hits] in *.
      destruct (ac_pc (after a l)); cbn [range_sees pc_source rg_seen] in *; try done.
      + destruct IHp as [H1 H2]. split; [done|]. intros x Hx.
        destruct (decide (x ∈ cv_members (ac_rooms (after a l)).1 r q)) as [Hin|Hnin].
        * destruct (H2 x Hin); [left; auto|by right].
        * right. destruct (rc_step_cases (al_o a) (ac_rooms (after a l)) i) as [E|(t & p & _ & Hin & E & _)]; [by rewrite E in Hx|].
          rewrite E in Hx. cbn [fst] in Hx. apply step_members in Hx; [|apply Hok]. destruct Hx as [?|(k0 & rest & -> & Hid)]; [done|].
          destruct (rooms_run l) as (g & ts & sched & Er). destruct Hok as (_ & _ & _ & Ho & _). apply (joining_start l).
          pose proof Hin as Hin'. rewrite Er in Hin'. pose proof (ci_pc _ _ _ (cinv_run _ Ho g ts sched) _ _ Hin') as Hpc.
          destruct t as [id' R|id' r'|id']; destruct Hpc as [Hp Hr]; try done. cbn in Hid. subst id'. exists R, (PAdd k0 q r rest).
          split_and!; [done| |done]. apply Hr. left.
      + destruct IHp as [H1 H2]. auto.
      + destruct IHp as (H1 & H2 & H3). auto.
      + destruct IHp as [H1 H2]. split; [done|]. intros x [?|?]%elem_of_union; auto.
      + destruct IHp as (H1 & H2 & H3). split_and!; [done| |set_solver]. intros x [?|?]%elem_of_union; auto.
      + destruct IHp as (H1 & H2 & H3 & H4). split_and!; [done| |set_solver|auto]. intros x [?|?]%elem_of_union; auto.
    - rewrite after_snoc. cbn [a_step ac_rooms ac_pc ac_hits]. split; [|exact IHh'].
      destruct (ac_pc (after a l)); cbn [pc_source] in *; try done.
      + destruct IHp as [H1 H2]. split; [done|]. intros x Hx. destruct (H2 x Hx); [left; auto|by right].
      + destruct IHp as [H1 H2]. auto.
      + destruct IHp as (H1 & H2 & H3). auto.
      + destruct IHp as [H1 H2]. auto.
      + destruct IHp as (H1 & H2 & H3). auto.
      + destruct IHp as (H1 & H2 & H3 & H4). auto 10.
    - assert (∀ r x, is_member x r (after a l) → sometime a (l ++ [AMove k]) (is_member x r)) as Hmem by (intros; by apply Htm, sometime_now).
      assert (∀ x, is_listed x (after a l) → sometime a (l ++ [AMove k]) (is_listed x)) as Hlis by (intros; by apply Htm, sometime_now).
      assert (∀ x, is_known x (after a l) → sometime a (l ++ [AMove k]) (is_known x)) as Hkno by (intros; by apply Htm, sometime_now).
      assert (∀ x P Q, x ∈ ac_hits (after a l) ++ [] → (x ∈ ac_hits (after a l) → P ∧ Q) → P ∧ Q) as Hnil by (intros ???; rewrite app_nil_r; auto).
      rewrite after_snoc. cbn [a_step ac_rooms ac_pc ac_hits]. destruct Hok as (Hom & _ & Hoi & _).
      destruct (ac_pc (after a l)) eqn:Epc; cbn [a_step1 fst snd pc_source] in *; rewrite ?app_nil_r; try (split; [|exact IHh']).
      + by destruct (al_oex a (al_except a)).
      + destruct (cv_rooms _ !! r); [done|]. by destruct todo.
      + by destruct todo.
      + destruct (decide _); cbn.
        * split; [done|]. intros x Hx%elem_of_dom. by apply Hkno.
        * apply source_next_room. intros r' Hr'. by apply order_elem in Hr'.
      + destruct (cv_rooms _ !! r) as [q|] eqn:Eq; cbn.
        * split; [done|]. intros x Hx. left. apply Hmem. unfold is_member, conc_members. by rewrite Eq.
        * apply source_next_room. intros r' Hr'. apply IHp. by right.
      + destruct IHp as [H1 H2]. apply source_next_id; [intros r' Hr'; apply H1; by right|]. intros x Hx. apply order_elem in Hx; [|done].
        apply Hsm. unfold source_of. assert (r ∈ al_rooms a) as Hr by (apply H1; left). rewrite decide_False by set_solver. exists r. auto.
      + destruct IHp as [H1 H2]. destruct (decide (id ∈ ac_socks (after a l))) as [Hin|]; cbn.
        * split_and!; auto.
        * apply source_next_id; [done|]. intros x Hx. apply Hsm, H2. by right.
      + destruct IHp as (H1 & H2 & H3). split; [apply source_next_id; [done|]; intros x Hx; apply Hsm, H2; by right|].
        intros x [?| ->%elem_of_list_singleton]%elem_of_app; [auto|]. split; [apply Hsm, H2; left|auto].
      + destruct IHp as [H1 H2]. destruct k as [i|].
        * destruct (decide (i ∈ rg_seen rg ∧ i ∉ rg_visited rg)) as [[Hs _]|]; [|cbn; auto].
          destruct (decide (i ∈ exc)); cbn; auto.
        * destruct (decide (rg_stable rg ⊆ rg_visited rg)); cbn; auto.
      + destruct IHp as (H1 & H2 & H3). destruct (decide (id ∈ ac_socks (after a l))); cbn; auto 10.
      + destruct IHp as (H1 & H2 & H3 & H4). split; [auto|]. intros x [?| ->%elem_of_list_singleton]%elem_of_app; [auto|].
        split; [|auto]. unfold source_of. rewrite decide_True by done. auto.
      + done.
  Qed.
End proofs.

(** *** The statements *)
Lemma reached a ls id : acall_ok a → always a ls (is_listed id) →
  (if decide (al_rooms a = ∅) then always a ls (is_known id) else ∃ r, r ∈ al_rooms a ∧ always a ls (is_member id r)) →
  (∀ e, e ∈ al_except a → ¬ is_member id e (after a []) ∧ ¬ is_joining id e (al_start a)) → finished (after a ls) →
  ∃ l1 l2, ac_hits (after a ls) = l1 ++ id :: l2 ∧ id ∉ l1 ++ l2.
Proof.
  intros Hok Hl Ht He Hf. assert (id ∈ ac_hits (after a ls)) as Hin.
  { destruct (decide (al_rooms a = ∅)); [by apply reached_all|]. destruct Ht as (r & Hr & Hm). by eapply reached_room. }
  apply elem_of_list_split in Hin as (l1 & l2 & E). exists l1, l2. split; [done|].
  pose proof (at_most_once a Hok ls) as Hn. rewrite E in Hn. apply NoDup_app in Hn as (_ & Hd & [H2 _]%NoDup_cons).
  intros [H|H]%elem_of_app; [|done]. apply (Hd id H). left.
Qed.
#[global] Instance is_member_dec id r c : Decision (is_member id r c).
Proof. unfold is_member. apply _. Defined.
Lemma possible a ls id : acall_ok a → id ∈ ac_hits (after a ls) →
  sometime a ls (is_listed id) ∧
  (if decide (al_rooms a = ∅) then sometime a ls (is_known id) else ∃ r, r ∈ al_rooms a ∧ (sometime a ls (is_member id r) ∨ is_joining id r (al_start a))) ∧
  (∀ e, e ∈ al_except a → sometime a ls (λ c, ¬ is_member id e c)).
Proof.
  intros Hok Hin. destruct (sources a Hok ls) as [_ H]. destruct (H id Hin) as [Hs Hl]. split_and!; [done|done|].
  intros e He. destruct (decide (Exists (λ n, ¬ is_member id e (after a (take n ls))) (seq 0 (S (length ls))))) as [Hx|Hx].
  - apply Exists_exists in Hx as (n & _ & Hx). exists (take n ls). split; [exists (drop n ls); by rewrite take_drop|done].
  - exfalso. eapply (excluded_missed a Hok ls id e); [done| |done]. intros l [k ->].
    destruct (decide (is_member id e (after a l))) as [|Hm]; [done|]. exfalso. apply Hx. apply Exists_exists. exists (length l).
    split; [apply elem_of_seq; rewrite app_length; lia|]. by rewrite take_app.
Qed.

(** Without interference. *)
Lemma returned_step o c i : returned c → rc_step o c i = c.
Proof.
  intros H. unfold rc_step. destruct c as [s l]. cbn [fst snd]. destruct (l !! i) as [[t p]|] eqn:E; [|done].
  rewrite (H t p) in E |- * by (by eapply elem_of_list_lookup_2). cbn. by rewrite list_insert_id.
Qed.
Lemma quiet_run a ls : returned (al_start a) → Forall quiet ls → ac_rooms (after a ls) = al_start a ∧ ac_socks (after a ls) = al_socks a.
Proof.
  intros Hr. induction ls as [|x l IH] using rev_ind; [done|]. intros [Hl Hx]%Forall_app. destruct (IH Hl) as [IH1 IH2].
  apply Forall_cons in Hx as [Hx _]. rewrite after_snoc. destruct x as [i|id b|k]; cbn [a_step ac_rooms ac_socks]; [|done|done].
  split; [|done]. rewrite IH1. by apply returned_step.
Qed.
Lemma alone a ls id : acall_ok a → returned (al_start a) → Forall quiet ls → finished (after a ls) →
  id ∈ ac_hits (after a ls) ↔ matching a id (after a []).
Proof.
  intros Hok Hr Hq Hf.
  assert (∀ l, l `prefix_of` ls → ac_rooms (after a l) = al_start a ∧ ac_socks (after a l) = al_socks a) as Hc.
  { intros l [k ->]. apply quiet_run; [done|]. by apply Forall_app in Hq as [? _]. }
  assert (∀ e, ¬ is_joining id e (al_start a)) as Hj. { intros e (R & p & Hin & _ & Hp). by apply Hp, (Hr (RcAdd id R) p). }
  unfold matching, is_listed, is_member, is_known. cbn [after a_run foldl ac_rooms ac_socks]. split.
  - intros Hin. destruct (possible a ls id Hok Hin) as ((l & Hl & H1) & H2 & H3). unfold is_listed in H1. rewrite (proj2 (Hc l Hl)) in H1. split_and!; [done| |].
    + destruct (decide _); [destruct H2 as (k & Hk & H2); unfold is_known in H2; by rewrite (proj1 (Hc k Hk)) in H2|].
      destruct H2 as (r & Hr' & [(k & Hk & H2)|H2]); [|by apply Hj in H2]. exists r. unfold is_member in H2. by rewrite (proj1 (Hc k Hk)) in H2.
    + intros (e & He & Hm). destruct (H3 e He) as (k & Hk & Hx). unfold is_member in Hx. by rewrite (proj1 (Hc k Hk)) in Hx.
  - intros (H1 & H2 & H3). destruct (reached a ls id) as (l1 & l2 & -> & _); [done|..|done|].
    + intros k Hk. unfold is_listed. by rewrite (proj2 (Hc k Hk)).
    + destruct (decide _).
      * intros k Hk. unfold is_known. by rewrite (proj1 (Hc k Hk)).
      * destruct H2 as (r & ? & ?). exists r. split; [done|]. intros k Hk. unfold is_member. by rewrite (proj1 (Hc k Hk)).
    + intros e He. split; [|apply Hj]. intros Hm. apply H3. by exists e.
    + apply elem_of_app. right. left.
Qed.

(** The atomic model of [Adapter.v] selects the same sockets. *)
Lemma refines {P} (s : nspace P) (os : orders) (opts : option bopts) (a : acall) (ls : list alabel) :
  orders_ok os → ns_wf s → acall_ok a → al_rooms a = opt_rooms opts → al_except a = opt_except opts →
  al_start a = (view_of (ns_reg s), []) → al_socks a = dom (ns_sockets s) → Forall quiet ls → finished (after a ls) →
  ac_hits (after a ls) ≡ₚ fetch_sockets os opts s.
Proof.
  intros Hos Hwf Hok Er Ee Es Ed Hq Hf.
  destruct (apply_wf (λ s', s' = s) (λ _ s, s) os opts s) as (Hn & _ & Hm & _); [done|done|done|by intros|].
  apply NoDup_Permutation; [by apply at_most_once|done|]. intros id. unfold fetch_sockets. rewrite Hm, alone; [|done|by rewrite Es; intros ? ? ?%elem_of_nil|done|done].
  unfold matching, matches, is_listed, is_member, is_known, listed, in_room. cbn [after a_run foldl ac_rooms ac_socks].
  rewrite Er, Ee, Es, Ed, elem_of_dom. cbn [fst].
  assert (∀ r, conc_members (view_of (ns_reg s)) r = members_of (ns_reg s) r) as Hc.
  { intros r. unfold conc_members, view_of. cbn. rewrite lookup_fmap. destruct (rg_rooms (ns_reg s) !! r) eqn:E; cbn; [done|]. unfold members_of. by rewrite E. }
  destruct Hwf as (_ & _ & _ & Hk).
  assert (is_Some (cv_sids (view_of (ns_reg s)) !! id) ↔ is_Some (rg_sids (ns_reg s) !! id)) as Hs. { cbn. rewrite lookup_fmap. apply fmap_is_Some. }
  assert (∀ X : gset room, (∃ r, r ∈ X ∧ id ∈ conc_members (view_of (ns_reg s)) r) ↔ ∃ r, r ∈ X ∧ id ∈ members_of (ns_reg s) r) as Hx.
  { intros X. split; intros (r & Hr & H); exists r; [rewrite Hc in H|rewrite Hc]; done. }
  rewrite (Hx (opt_except opts)). destruct (decide (opt_rooms opts = ∅)) as [E|E].
  - rewrite Hs. split; [intros (? & ? & ?); auto|]. intros (H & _ & ?). split_and!; [done|by apply Hk|done].
  - rewrite (Hx (opt_rooms opts)). split; [intros (? & ? & ?); auto|]. by intros (? & [?|?] & ?).
Qed.

(** Checking a run by evaluation. *)
Lemma always_check a ls (P : aconf → Prop) `{∀ c, Decision (P c)} :
  forallb (λ n, bool_decide (P (after a (take n ls)))) (seq 0 (S (length ls))) = true → always a ls P.
Proof.
  intros Hb l [k ->]. rewrite forallb_forall in Hb. specialize (Hb (length l)). rewrite take_app, bool_decide_eq_true in Hb. apply Hb.
  apply in_seq. rewrite app_length. lia.
Qed.

(** The table of sockets is changed by connections and disconnections, each for its socket. *)
Lemma listing_step a ls x id : (∀ b, x ≠ AListed id b) → is_listed id (after a (ls ++ [x])) ↔ is_listed id (after a ls).
Proof.
  intros Hx. unfold is_listed, after, a_run. rewrite foldl_app. cbn. destruct x as [i|id' b|k]; cbn; [done| |done].
  assert (id ≠ id') by (intros ->; by apply (Hx b)). destruct b; set_solver.
Qed.
Lemma listing_rest a ls ls' id : (∀ b, AListed id b ∉ ls') → is_listed id (after a (ls ++ ls')) ↔ is_listed id (after a ls).
Proof.
  induction ls' as [|x ls' IH] using rev_ind; intros Hn; [by rewrite app_nil_r|]. rewrite app_assoc, listing_step by (intros b ->; apply (Hn b); set_solver).
  apply IH. intros b Hb. apply (Hn b). set_solver.
Qed.
Lemma listing_start a ls id : (∀ b, AListed id b ∉ ls) → is_listed id (after a ls) ↔ id ∈ al_socks a.
Proof. intros Hn. apply (listing_rest a [] ls id Hn). Qed.
Lemma listing a ls b ls' id : (∀ b', AListed id b' ∉ ls') → is_listed id (after a (ls ++ AListed id b :: ls')) ↔ b = true.
Proof.
  intros Hn. rewrite (cons_middle _ ls ls'), app_assoc, listing_rest by done. unfold is_listed, after, a_run. rewrite foldl_app. cbn. destruct b; set_solver.
Qed.
