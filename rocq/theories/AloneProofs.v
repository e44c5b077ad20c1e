(** Proofs: calls that run one after another compute the functions of the sequential models. *)
From Verif Require Import Base GoTypes Rooms RoomsConc Session SessionConc AloneSpec.

(** ** One call of the room tables, alone *)
Fixpoint solo (o : order) (t : rcall) (n : nat) (x : rcpc * cview) : rcpc * cview :=
  match n with 0 => x | S n => solo o t n (rc_step1 o t x.1 x.2) end.
Lemma solo_app o t n m x : solo o t (n + m) x = solo o t m (solo o t n x).
Proof. revert x. induction n as [|n IH]; intros x; cbn; [done|apply IH]. Qed.
Lemma solo_done o t n s : solo o t n (PDone, s) = (PDone, s).
Proof. induction n as [|n IH]; cbn; done. Qed.
Lemma solo_ends o t n m x s : solo o t n x = (PDone, s) → (solo o t m x).1 = PDone → solo o t m x = (PDone, s).
Proof.
  intros Hn Hm. destruct (decide (n ≤ m)) as [Hle|Hle].
  - replace m with (n + (m - n)) by lia. by rewrite solo_app, Hn, solo_done.
  - replace n with (m + (n - m)) in Hn by lia. rewrite solo_app in Hn. destruct (solo o t m x) as [p s1]. cbn in Hm. subst p.
    by rewrite solo_done in Hn.
Qed.

Lemma contents_rooms s r : rg_rooms (contents s) !! r = (λ q, cv_members s r q) <$> cv_rooms s !! r.
Proof. cbn. rewrite map_lookup_imap. by destruct (cv_rooms s !! r). Qed.
Lemma contents_sids s id : rg_sids (contents s) !! id = (λ k, cv_srooms s id k) <$> cv_sids s !! id.
Proof. cbn. rewrite map_lookup_imap. by destruct (cv_sids s !! id). Qed.
Lemma registry_ext g h : (∀ r, rg_rooms g !! r = rg_rooms h !! r) → (∀ i, rg_sids g !! i = rg_sids h !! i) → g = h.
Proof. destruct g, h. cbn. intros H1 H2. f_equal; by apply map_eq. Qed.
Lemma contents_view g : contents (view_of g) = g.
Proof.
  apply registry_ext; intros x; [rewrite contents_rooms|rewrite contents_sids]; cbn; rewrite lookup_fmap.
  - unfold members_of. destruct (rg_rooms g !! x); done.
  - unfold rooms_of. destruct (rg_sids g !! x); done.
Qed.

Lemma upd_same f x k v : upd f x k v x k = v.
Proof. unfold upd. by rewrite decide_True by done. Qed.
Lemma upd_other f x k v y j : y ≠ x → upd f x k v y j = f y j.
Proof. intros. unfold upd. rewrite decide_False; [done|]. by intros [? _]. Qed.

(** The effect of the single steps on the contents. *)
Lemma contents_mark s id k r : cv_sids s !! id = Some k →
  contents (CView (cv_sids s) (cv_rooms s) (upd (cv_srooms s) id k ({[r]} ∪ cv_srooms s id k)) (cv_members s) (cv_next s)) =
  Registry (rg_rooms (contents s)) (<[id := {[r]} ∪ default ∅ (rg_sids (contents s) !! id)]> (rg_sids (contents s))).
Proof.
  intros Hk. apply registry_ext; intros x; [done|]. rewrite contents_sids. cbn [cv_sids cv_srooms rg_sids].
  destruct (decide (x = id)) as [->|Hx].
  - rewrite lookup_insert, contents_sids, Hk. cbn. by rewrite upd_same.
  - rewrite lookup_insert_ne by done. rewrite contents_sids. destruct (cv_sids s !! x); cbn; [by rewrite upd_other|done].
Qed.
Lemma contents_unmark s id k r : cv_sids s !! id = Some k →
  contents (CView (cv_sids s) (cv_rooms s) (upd (cv_srooms s) id k (cv_srooms s id k ∖ {[r]})) (cv_members s) (cv_next s)) =
  Registry (rg_rooms (contents s)) (<[id := cv_srooms s id k ∖ {[r]}]> (rg_sids (contents s))).
Proof.
  intros Hk. apply registry_ext; intros x; [done|]. rewrite contents_sids. cbn [cv_sids cv_srooms rg_sids].
  destruct (decide (x = id)) as [->|Hx].
  - rewrite lookup_insert, Hk. cbn. by rewrite upd_same.
  - rewrite lookup_insert_ne by done. rewrite contents_sids. destruct (cv_sids s !! x); cbn; [by rewrite upd_other|done].
Qed.
Lemma contents_new_sid s id : 
  contents (CView (<[id := cv_next s]> (cv_sids s)) (cv_rooms s) (upd (cv_srooms s) id (cv_next s) ∅) (cv_members s) (S (cv_next s))) =
  Registry (rg_rooms (contents s)) (<[id := ∅]> (rg_sids (contents s))).
Proof.
  apply registry_ext; intros x; [done|]. rewrite contents_sids. cbn [cv_sids cv_srooms rg_sids].
  destruct (decide (x = id)) as [->|Hx].
  - rewrite !lookup_insert. cbn. by rewrite upd_same.
  - rewrite !lookup_insert_ne by done. rewrite contents_sids. destruct (cv_sids s !! x); cbn; [by rewrite upd_other|done].
Qed.
Lemma contents_new_room s r :
  contents (CView (cv_sids s) (<[r := cv_next s]> (cv_rooms s)) (cv_srooms s) (upd (cv_members s) r (cv_next s) ∅) (S (cv_next s))) =
  Registry (<[r := ∅]> (rg_rooms (contents s))) (rg_sids (contents s)).
Proof.
  apply registry_ext; intros x; [|done]. rewrite contents_rooms. cbn [cv_rooms cv_members rg_rooms].
  destruct (decide (x = r)) as [->|Hx].
  - rewrite !lookup_insert. cbn. by rewrite upd_same.
  - rewrite !lookup_insert_ne by done. rewrite contents_rooms. destruct (cv_rooms s !! x); cbn; [by rewrite upd_other|done].
Qed.
Lemma contents_member s r q X : cv_rooms s !! r = Some q →
  contents (CView (cv_sids s) (cv_rooms s) (cv_srooms s) (upd (cv_members s) r q X) (cv_next s)) =
  Registry (<[r := X]> (rg_rooms (contents s))) (rg_sids (contents s)).
Proof.
  intros Hq. apply registry_ext; intros x; [|done]. rewrite contents_rooms. cbn [cv_rooms cv_members rg_rooms].
  destruct (decide (x = r)) as [->|Hx].
  - rewrite lookup_insert, Hq. cbn. by rewrite upd_same.
  - rewrite lookup_insert_ne by done. rewrite contents_rooms. destruct (cv_rooms s !! x); cbn; [by rewrite upd_other|done].
Qed.
Lemma contents_drop s r :
  contents (CView (cv_sids s) (delete r (cv_rooms s)) (cv_srooms s) (cv_members s) (cv_next s)) =
  Registry (delete r (rg_rooms (contents s))) (rg_sids (contents s)).
Proof.
  apply registry_ext; intros x; [|done]. rewrite contents_rooms. cbn [cv_rooms cv_members rg_rooms].
  destruct (decide (x = r)) as [->|Hx]; [by rewrite !lookup_delete|]. rewrite !lookup_delete_ne by done. by rewrite contents_rooms.
Qed.
Lemma contents_end s id :
  contents (CView (delete id (cv_sids s)) (cv_rooms s) (cv_srooms s) (cv_members s) (cv_next s)) =
  Registry (rg_rooms (contents s)) (delete id (rg_sids (contents s))).
Proof.
  apply registry_ext; intros x; [done|]. rewrite contents_sids. cbn [cv_sids cv_srooms rg_sids].
  destruct (decide (x = id)) as [->|Hx]; [by rewrite !lookup_delete|]. rewrite !lookup_delete_ne by done. by rewrite contents_sids.
Qed.

(** The loop of AddAll. *)
Lemma add_loop o id R0 rest : ∀ s k l, cv_sids s !! id = Some k →
  ∃ n s', solo o (RcAdd id R0) n (next_add k rest, s) = (PDone, s') ∧ contents s' = (foldl (add_one id) (contents s, l) rest).1.
Proof.
  induction rest as [|r rest IH]; intros s k l Hk.
  { by exists 0, s. }
  cbn [next_add].
  set (s1 := CView (cv_sids s) (cv_rooms s) (upd (cv_srooms s) id k ({[r]} ∪ cv_srooms s id k)) (cv_members s) (cv_next s)).
  assert (H1 : solo o (RcAdd id R0) 1 (PMark k r rest, s) = (PGet k r rest, s1)) by done.
  assert (E1 : contents s1 = Registry (rg_rooms (contents s)) (<[id := {[r]} ∪ default ∅ (rg_sids (contents s) !! id)]> (rg_sids (contents s))))
    by (by apply contents_mark).
  assert (Hk1 : cv_sids s1 !! id = Some k) by done.
  (* after LoadOrStore *)
  assert (H2 : ∃ q s2, solo o (RcAdd id R0) 1 (PGet k r rest, s1) = (PHas k q r rest, s2) ∧ cv_sids s2 !! id = Some k ∧ cv_rooms s2 !! r = Some q ∧
     cv_members s2 r q = default ∅ (rg_rooms (contents s) !! r) ∧
     contents s2 = Registry (<[r := default ∅ (rg_rooms (contents s) !! r)]> (rg_rooms (contents s))) (rg_sids (contents s1))).
  { assert (Hsame : cv_rooms s1 = cv_rooms s) by done.
    assert (Hmem : cv_members s1 = cv_members s) by done.
    assert (E1r : rg_rooms (contents s1) = rg_rooms (contents s)) by done.
    clearbody s1. rewrite <- E1r. destruct (cv_rooms s1 !! r) as [q|] eqn:Hq.
    - exists q, s1. cbn. rewrite Hq. split_and!; [done..| |].
      + by rewrite map_lookup_imap, Hq.
      + apply registry_ext; intros x; [|done]. cbn [rg_rooms]. destruct (decide (x = r)) as [->|Hx].
        * rewrite lookup_insert. rewrite contents_rooms, Hq. cbn. by rewrite map_lookup_imap, Hq.
        * by rewrite lookup_insert_ne by done.
    - exists (cv_next s1). eexists. cbn -[contents]. rewrite Hq. split_and!; [reflexivity|done|apply lookup_insert| |].
      + cbn -[contents]. by rewrite upd_same, contents_rooms, Hq.
      + rewrite contents_new_room. by rewrite contents_rooms, Hq. }
  destruct H2 as (q & s2 & H2 & Hk2 & Hq2 & Em & E2). clearbody s1.
  (* the id is added unless it is there *)
  assert (H3 : ∃ m s3, solo o (RcAdd id R0) m (PHas k q r rest, s2) = (next_add k rest, s3) ∧ cv_sids s3 !! id = Some k ∧
     ∃ l', add_one id (contents s, l) r = (contents s3, l')).
  { unfold add_one.
    assert (Hd : ∃ lg, (let '(ids, loaded) := match rg_rooms (contents s) !! r with Some ids => (ids, true) | None => (∅, false) end in
       let log1 := if (loaded : bool) then l else l ++ [CreateRoom r] in (ids, log1)) = (cv_members s2 r q, lg)).
    { rewrite Em. destruct (rg_rooms (contents s) !! r); eexists; reflexivity. }
    destruct Hd as [lg Hd].
    destruct (match rg_rooms (contents s) !! r with Some ids => (ids, true) | None => (∅, false) end) as [ids loaded].
    cbn in Hd. injection Hd as -> _.
    destruct (decide (id ∈ cv_members s2 r q)) as [Hin|Hin].
    - exists 1, s2. cbn [solo rc_step1 fst snd rc_id]. rewrite decide_True by done. split_and!; [done..|]. eexists. f_equal.
      rewrite E2, E1, <- Em. done.
    - exists 2. eexists. cbn [solo rc_step1 fst snd rc_id]. rewrite decide_False by done. cbn [fst snd rc_step1 rc_id].
      split_and!; [reflexivity|done|]. eexists. f_equal. rewrite contents_member by done. rewrite E2, E1, <- Em. cbn [rg_rooms rg_sids].
      by rewrite insert_insert. }
  destruct H3 as (m & s3 & H3 & Hk3 & l' & E3).
  destruct (IH s3 k l' Hk3) as (n & s' & Hn & En).
  exists (1 + (1 + (m + n))), s'. rewrite solo_app, H1, solo_app, H2, solo_app, H3. split; [done|]. cbn [foldl]. by rewrite E3.
Qed.

(** _del, for one room. *)
Lemma del_one o t r rest s : ∃ n s', solo o t n (PLoad r rest, s) = (next_del t rest, s') ∧ cv_sids s' = cv_sids s ∧ cv_srooms s' = cv_srooms s ∧
  contents s' = (del_from_room true r (rc_id t) (contents s)).1.
Proof.
  unfold del_from_room. rewrite contents_rooms. destruct (cv_rooms s !! r) as [q|] eqn:Hq; cbn [fmap option_fmap option_map].
  - set (X := cv_members s r q ∖ {[rc_id t]}).
    set (s1 := CView (cv_sids s) (cv_rooms s) (cv_srooms s) (upd (cv_members s) r q X) (cv_next s)).
    assert (E1 : contents s1 = Registry (<[r := X]> (rg_rooms (contents s))) (rg_sids (contents s))) by (by apply contents_member).
    assert (H1 : solo o t 2 (PLoad r rest, s) = (PLen q r rest, s1)).
    { cbn [solo rc_step1 fst snd]. rewrite Hq. done. }
    assert (Hm : cv_members s1 r q = X) by (unfold s1; cbn; apply upd_same).
    assert (Hs : cv_sids s1 = cv_sids s ∧ cv_srooms s1 = cv_srooms s) by done. destruct Hs as [Hs1 Hs2]. clearbody s1.
    destruct (decide (size X = 0)) as [H0|H0].
    + exists (2 + 2). eexists. rewrite solo_app, H1. cbn [solo rc_step1 fst snd]. rewrite Hm.
      assert (HX : X = ∅) by (by apply leibniz_equiv, size_empty_iff). rewrite decide_True by done. cbn [rc_step1 fst snd].
      split_and!; [reflexivity|done..|]. rewrite contents_drop, E1. cbn [rg_rooms rg_sids]. by rewrite delete_insert_delete.
    + exists (2 + 1). eexists. rewrite solo_app, H1. cbn [solo rc_step1 fst snd]. rewrite Hm.
      rewrite decide_False; [|intros HX; apply H0; rewrite HX; apply size_empty].
      split_and!; [reflexivity|done..].
  - exists 1, s. cbn [solo rc_step1 fst snd]. rewrite Hq. done.
Qed.
Lemma del_loop o t rest : ∀ s l, ∃ n s', solo o t n (next_del t rest, s) = (next_del t [], s') ∧
  contents s' = (foldl (λ acc r, let '(g', l') := del_from_room true r (rc_id t) acc.1 in (g', acc.2 ++ l')) (contents s, l) rest).1.
Proof.
  induction rest as [|r rest IH]; intros s l.
  { by exists 0, s. }
  destruct (del_one o t r rest s) as (n & s1 & Hn & _ & _ & E). cbn [foldl fst snd]. cbn [next_del].
  destruct (del_from_room true r (rc_id t) (contents s)) as [g' l'] eqn:Ed. cbn [fst] in E. subst g'.
  destruct (IH s1 (l ++ l')) as (m & s2 & Hm & E2). exists (n + m), s2. by rewrite solo_app, Hn.
Qed.

Lemma call_alone o t s : ∃ n s', solo o t n (PStart, s) = (PDone, s') ∧ contents s' = in_one o t (contents s).
Proof.
  destruct t as [id R|id r|id]; cbn [in_one].
  - unfold add_all. rewrite contents_sids. destruct (cv_sids s !! id) as [k|] eqn:Hk; cbn [fmap option_fmap option_map].
    + destruct (add_loop o id R R s k [] Hk) as (n & s' & Hn & E). exists (1 + n), s'. rewrite solo_app. cbn [solo rc_step1 fst snd rc_id].
      rewrite Hk. split; [done|]. rewrite E. by destruct (contents s).
    + set (s1 := CView (<[id := cv_next s]> (cv_sids s)) (cv_rooms s) (upd (cv_srooms s) id (cv_next s) ∅) (cv_members s) (S (cv_next s))).
      assert (Hk1 : cv_sids s1 !! id = Some (cv_next s)) by (unfold s1; cbn; by rewrite lookup_insert).
      destruct (add_loop o id R R s1 _ [] Hk1) as (n & s' & Hn & E). exists (1 + n), s'. rewrite solo_app. cbn [solo rc_step1 fst snd rc_id].
      rewrite Hk. split; [done|]. rewrite E. unfold s1. by rewrite contents_new_sid.
  - unfold del. rewrite contents_sids. destruct (cv_sids s !! id) as [k|] eqn:Hk; cbn [fmap option_fmap option_map].
    + set (s1 := CView (cv_sids s) (cv_rooms s) (upd (cv_srooms s) id k (cv_srooms s id k ∖ {[r]})) (cv_members s) (cv_next s)).
      destruct (del_one o (RcDel id r) r [] s1) as (n & s' & Hn & _ & _ & E). exists (2 + n), s'. rewrite solo_app.
      cbn [solo rc_step1 fst snd rc_id]. rewrite Hk. cbn [fst snd rc_step1 rc_id]. split; [exact Hn|]. rewrite E. unfold s1.
      by rewrite contents_unmark.
    + destruct (del_one o (RcDel id r) r [] s) as (n & s' & Hn & _ & _ & E). exists (1 + n), s'. rewrite solo_app.
      cbn [solo rc_step1 fst snd rc_id]. rewrite Hk. split; [exact Hn|]. rewrite E. by destruct (contents s).
  - unfold del_all. rewrite contents_sids. destruct (cv_sids s !! id) as [k|] eqn:Hk; cbn [fmap option_fmap option_map].
    + destruct (del_loop o (RcDelAll id) (o (cv_srooms s id k)) s []) as (n & s' & Hn & E).
      exists (2 + (n + 1)). eexists. rewrite solo_app. cbn [solo rc_step1 fst snd rc_id]. rewrite Hk. cbn [fst snd rc_step1 rc_id].
      rewrite solo_app, Hn. cbn [next_del solo rc_step1 fst snd rc_id]. split; [reflexivity|]. rewrite contents_end, E.
      unfold del_rooms. cbn [rc_id]. by destruct (foldl _ _ _) as [g' log].
    + exists 1, s. cbn [solo rc_step1 fst snd rc_id]. by rewrite Hk.
Qed.

(** ** Blocks *)
Lemma block o i t n : ∀ c p, c.2 !! i = Some (t, p) →
  foldl (rc_step o) c (replicate n i) = ((solo o t n (p, c.1)).2, <[i := (t, (solo o t n (p, c.1)).1)]> c.2).
Proof.
  induction n as [|n IH]; intros [s l] p Hi; cbn [replicate foldl solo fst snd] in *.
  - by rewrite list_insert_id.
  - unfold rc_step at 2. cbn [snd fst]. rewrite Hi. destruct (rc_step1 o t p s) as [p' s'] eqn:E. cbn [fst snd].
    rewrite (IH (s', <[i:=(t, p')]> l) p'); [cbn [fst snd]; by rewrite list_insert_insert|].
    cbn. apply list_lookup_insert. by eapply lookup_lt_Some.
Qed.
Lemma block_none o i n : ∀ c, c.2 !! i = None → foldl (rc_step o) c (replicate n i) = c.
Proof.
  induction n as [|n IH]; intros c Hi; cbn [replicate foldl]; [done|]. unfold rc_step at 2. rewrite Hi. by apply IH.
Qed.
Lemma blocks_other o (blocks : list (nat * nat)) j : j ∉ blocks.*1 → ∀ c, (foldl (rc_step o) c (one_by_one blocks)).2 !! j = c.2 !! j.
Proof.
  induction blocks as [|[i n] bs IH]; intros Hj c; [done|]. cbn in Hj. apply not_elem_of_cons in Hj as [Hne Hj].
  unfold one_by_one. cbn [fmap list_fmap concat fst snd]. rewrite foldl_app. unfold one_by_one in IH. rewrite IH by done.
  destruct (c.2 !! i) as [[t p]|] eqn:Hi.
  - rewrite (block o i t n c p Hi). cbn. by rewrite list_lookup_insert_ne.
  - by rewrite block_none.
Qed.
Lemma blocks_contents o (blocks : list (nat * nat)) : ∀ c, NoDup blocks.*1 →
  (∀ i t p, i ∈ blocks.*1 → c.2 !! i = Some (t, p) → p = PStart) →
  all_returned (foldl (rc_step o) c (one_by_one blocks)) blocks.*1 →
  contents (foldl (rc_step o) c (one_by_one blocks)).1 = in_turn o (omap (λ i, fst <$> c.2 !! i) blocks.*1) (contents c.1).
Proof.
  induction blocks as [|[i n] bs IH]; intros c Hnd Hst Hret; [done|].
  cbn [fmap list_fmap fst snd] in *. apply NoDup_cons in Hnd as [Hni Hnd]. apply Forall_cons in Hret as [[t Hi] Hret].
  assert (Eob : one_by_one ((i, n) :: bs) = replicate n i ++ one_by_one bs) by done.
  rewrite Eob in *. rewrite foldl_app in *. rewrite blocks_other in Hi by done.
  destruct (c.2 !! i) as [[t0 p0]|] eqn:Hc; [|rewrite block_none in Hi by done; congruence].
  rewrite (block o i t0 n c p0 Hc) in *. cbn [fst snd] in *.
  rewrite list_lookup_insert in Hi by (by eapply lookup_lt_Some). injection Hi as -> Hp.
  assert (p0 = PStart) as -> by (eapply (Hst i); [left|exact Hc]).
  destruct (call_alone o t c.1) as (m & s' & Hm & Es). pose proof (solo_ends _ _ _ _ _ _ Hm Hp) as Hn. rewrite Hn in *. cbn [fst snd] in *.
  rewrite IH; [|done| |done].
  - cbn [fst snd omap list_omap]. rewrite Hc. cbn. rewrite <- Es. unfold in_turn. f_equal. apply list_omap_ext, Forall2_same_length_lookup_2; [done|].
    intros j x y Hx Hy. rewrite Hx in Hy. injection Hy as ->. rewrite list_lookup_insert_ne; [done|].
    intros ->. by apply elem_of_list_lookup_2 in Hx.
  - intros j t1 p1 Hj H. cbn in H. rewrite list_lookup_insert_ne in H by (by intros ->). eapply (Hst j); [by right|exact H].
Qed.

Lemma in_turn_calls ts (is : list nat) : omap (λ i, fst <$> ((λ t, (t, PStart)) <$> ts) !! i) is = omap (λ i, (ts : list rcall) !! i) is.
Proof.
  apply list_omap_ext, Forall2_same_length_lookup_2; [done|]. intros j x y Hx Hy. rewrite Hx in Hy. injection Hy as ->.
  rewrite list_lookup_fmap. by destruct (ts !! y).
Qed.
Lemma rooms_one_by_one o g ts (blocks : list (nat * nat)) : NoDup blocks.*1 →
  all_returned (rc_run o g ts (one_by_one blocks)) blocks.*1 →
  contents (rc_run o g ts (one_by_one blocks)).1 = in_turn o (omap (λ i, ts !! i) blocks.*1) g.
Proof.
  intros Hnd Hret. unfold rc_run in *. rewrite blocks_contents; [|done| |done].
  - cbn [snd fst]. by rewrite in_turn_calls, contents_view.
  - intros i t p _ H. cbn in H. rewrite list_lookup_fmap in H. destruct (ts !! i); [|done]. by injection H.
Qed.
(** Each call returns. *)
Lemma blocks_end o (is : list nat) : ∀ c, NoDup is → (∀ i, i ∈ is → ∃ t, c.2 !! i = Some (t, PStart)) →
  ∃ blocks, blocks.*1 = is ∧ all_returned (foldl (rc_step o) c (one_by_one blocks)) is.
Proof.
  induction is as [|i is IH]; intros c Hnd Hst.
  { exists []. by split; [|constructor]. }
  apply NoDup_cons in Hnd as [Hni Hnd]. destruct (Hst i) as [t Hi]; [left|].
  destruct (call_alone o t c.1) as (n & s' & Hn & _).
  pose proof (block o i t n c PStart Hi) as Hb. rewrite Hn in Hb. cbn in Hb.
  destruct (IH (s', <[i := (t, PDone)]> c.2)) as (bs & Ebs & Hbs); [done| |].
  { intros j Hj. destruct (Hst j) as [tj Htj]; [by right|]. exists tj. cbn. by rewrite list_lookup_insert_ne by (by intros ->). }
  exists ((i, n) :: bs). cbn [fmap list_fmap fst]. rewrite Ebs. split; [done|].
  assert (Eob : one_by_one ((i, n) :: bs) = replicate n i ++ one_by_one bs) by done. rewrite Eob, foldl_app, Hb.
  constructor; [|done]. exists t. rewrite blocks_other by (by rewrite Ebs). cbn. apply list_lookup_insert. by eapply lookup_lt_Some.
Qed.
Lemma rooms_each_ends o g ts (is : list nat) : NoDup is → Forall (λ i, i < length ts) is →
  ∃ blocks, blocks.*1 = is ∧ all_returned (rc_run o g ts (one_by_one blocks)) is.
Proof.
  intros Hnd Hlt. apply blocks_end; [done|]. intros i Hi. rewrite Forall_forall in Hlt. specialize (Hlt i Hi).
  apply lookup_lt_is_Some in Hlt as [t Ht]. exists t. cbn. by rewrite list_lookup_fmap, Ht.
Qed.

(** ** One call on the store, alone *)
Lemma qset_qset s i t t' : qset (qset s i t) i t' = qset s i t'.
Proof. unfold qset. cbn. by rewrite list_insert_insert. Qed.
Lemma qset_lookup s i t : i < length (q_threads s) → q_threads (qset s i t) !! i = Some t.
Proof. intros. cbn. by apply list_lookup_insert. Qed.
Lemma qrun_replicate_S max s i now n : qrun max s (replicate (S n) (i, now)) = qrun max (qstep max s (i, now)) (replicate n (i, now)).
Proof. done. Qed.
Lemma qrun_replicate_app max s e n m : qrun max s (replicate (n + m) e) = qrun max (qrun max s (replicate n e)) (replicate m e).
Proof. unfold qrun. by rewrite replicate_add, foldl_app. Qed.
Lemma ended_stays max s i now t n : q_threads s !! i = Some t → ended_call t → qrun max s (replicate n (i, now)) = s.
Proof.
  intros Hi He. induction n as [|n IH]; [done|]. rewrite qrun_replicate_S.
  assert (qstep max s (i, now) = s) as ->; [|done]. unfold qstep. rewrite Hi. destruct t as [id b pc|o pid off pc|x pc|ks pc]; cbn in He.
  - by subst.
  - destruct He as [r ->]. done.
  - by subst.
  - by subst.
Qed.

Lemma find_index_after off ps : after_offset off ps = (λ n, drop (S n) ps) <$> find_index off ps.
Proof.
  induction ps as [|p ps IH]; [done|]. cbn [after_offset find_index]. destruct (decide (sp_id p = off)); [done|].
  rewrite IH. by destruct (find_index off ps).
Qed.
Lemma find_index_lt off ps n : find_index off ps = Some n → n < length ps.
Proof.
  revert n. induction ps as [|p ps IH]; intros n; cbn; [done|]. destruct (decide (sp_id p = off)); [intros [= <-]; lia|].
  destruct (find_index off ps) as [m|]; [|done]. intros [= <-]. specialize (IH m eq_refl). lia.
Qed.

Definition loop_result (o : order) (x : session) (acc : list (list value)) (ps : list spacket) : restored :=
  match missed_loop (o (se_rooms x)) ps with None => RPanic | Some l => RSession x (acc ++ l) end.
Lemma restore_loop max i now o pid off x s : i < length (q_threads s) → ∀ m n acc, length (q_packets s) - n ≤ m →
  ∃ k, qrun max (qset s i (QRestore o pid off (QRloop x n acc))) (replicate k (i, now)) =
       qset s i (QRestore o pid off (QRdone (loop_result o x acc (drop n (q_packets s))))).
Proof.
  intros Hi. induction m as [|m IH]; intros n acc Hm.
  - exists 1. rewrite qrun_replicate_S. cbn [replicate qrun foldl]. unfold qstep. rewrite qset_lookup by done.
    cbn [q_packets qset]. destruct (Nat.ltb_spec n (length (q_packets s))); [lia|]. rewrite qset_qset. unfold loop_result.
    rewrite drop_ge by done. cbn. by rewrite app_nil_r.
  - destruct (decide (n < length (q_packets s))) as [Hn|Hn].
    + destruct (lookup_lt_is_Some_2 _ _ Hn) as [p Hp].
      assert (H2 : qrun max (qset s i (QRestore o pid off (QRloop x n acc))) (replicate 2 (i, now)) =
        qset s i (QRestore o pid off (match should_include (o (se_rooms x)) (sp_opts p) with
                            | None => QRdone RPanic
                            | Some inc => QRloop x (S n) (if inc then acc ++ [sp_data p] else acc)
                            end))).
      { rewrite qrun_replicate_S. unfold qstep. rewrite qset_lookup by done. cbn [q_packets qset].
        destruct (Nat.ltb_spec n (length (q_packets s))); [|lia]. rewrite qset_qset.
        rewrite qrun_replicate_S. cbn [replicate qrun foldl]. unfold qstep. rewrite qset_lookup by done. cbn [q_packets qset].
        rewrite Hp. by rewrite qset_qset. }
      assert (Ed : loop_result o x acc (drop n (q_packets s)) =
        match should_include (o (se_rooms x)) (sp_opts p) with
        | None => RPanic | Some inc => loop_result o x (if inc then acc ++ [sp_data p] else acc) (drop (S n) (q_packets s)) end).
      { unfold loop_result. rewrite (drop_S _ p n) by done. cbn [missed_loop]. destruct (should_include _ _) as [inc|]; [|done].
        destruct (missed_loop _ _) as [l|]; [|done]. destruct inc; [|done]. by rewrite <- app_assoc. }
      rewrite Ed. destruct (should_include (o (se_rooms x)) (sp_opts p)) as [inc|].
      * destruct (IH (S n) (if inc then acc ++ [sp_data p] else acc)) as [k Hk]; [lia|]. exists (2 + k).
        by rewrite qrun_replicate_app, H2.
      * exists 2. done.
    + apply (IH n acc). lia.
Qed.

Lemma filter_visit (th : Z) (ses : gmap string (session * Z)) k todo : 
  filter (λ kv, ¬ (kv.1 ∈ todo ∧ (kv.2.2 < th)%Z)) (match ses !! k with Some (_, t) => if (t <? th)%Z then delete k ses else ses | None => ses end) =
  filter (λ kv, ¬ (kv.1 ∈ k :: todo ∧ (kv.2.2 < th)%Z)) ses.
Proof.
  apply map_eq. intros j. apply option_eq. intros [x t]. rewrite !map_filter_lookup_Some. cbn.
  destruct (ses !! k) as [[x0 t0]|] eqn:Hk.
  - destruct (Z.ltb_spec t0 th) as [Ht|Ht].
    + rewrite lookup_delete_Some, elem_of_cons. split.
      * intros [[Hne Hj] H]. split; [done|]. intros [[->|Hin] Hlt]; [done|]. by apply H.
      * intros [Hj H]. split; [split; [|done]|].
        -- intros ->. apply H. rewrite Hk in Hj. injection Hj as -> ->. split; [by left|done].
        -- intros [Hin Hlt]. apply H. split; [by right|done].
    + rewrite elem_of_cons. split; intros [Hj H]; split; try done.
      * intros [[->|Hin] Hlt]; [rewrite Hk in Hj; injection Hj as -> ->; lia|]. by apply H.
      * intros [Hin Hlt]. apply H. split; [by right|done].
  - rewrite elem_of_cons. split; intros [Hj H]; split; try done.
    + intros [[->|Hin] Hlt]; [congruence|]. by apply H.
    + intros [Hin Hlt]. apply H. split; [by right|done].
Qed.
Lemma qsessions_qset f s i t : qsessions f (qset s i t) = qset (qsessions f s) i t.
Proof. done. Qed.
Lemma cleanup_loop max i now ks th todo : ∀ s, i < length (q_threads s) →
  ∃ n, qrun max (qset s i (QCleanup ks (QCvisit th todo))) (replicate n (i, now)) =
       qset (qsessions (filter (λ kv, ¬ (kv.1 ∈ todo ∧ (kv.2.2 < th)%Z))) s) i (QCleanup ks (QCsplice th)).
Proof.
  induction todo as [|k todo IH]; intros s Hi.
  - exists 1. rewrite qrun_replicate_S. cbn [replicate qrun foldl]. unfold qstep. rewrite qset_lookup by done. rewrite qset_qset.
    f_equal. unfold qsessions. destruct s as [ses ps pu re se th']. cbn. f_equal. symmetry. apply map_filter_id. intros j x _ [Hin _].
    by apply elem_of_nil in Hin.
  - set (s1 := qsessions (λ ses, match ses !! k with Some (_, t) => if (t <? th)%Z then delete k ses else ses | None => ses end) s).
    assert (H1 : ∃ n, qrun max (qset s i (QCleanup ks (QCvisit th (k :: todo)))) (replicate n (i, now)) = qset s1 i (QCleanup ks (QCvisit th todo))).
    { assert (Hst : qstep max (qset s i (QCleanup ks (QCvisit th (k :: todo)))) (i, now) =
        qset s i (QCleanup ks (match q_sessions s !! k with
                                   | Some (_, t) => if (t <? th)%Z then QCdelete th k todo else QCvisit th todo
                                   | None => QCvisit th todo
                                   end))).
      { unfold qstep. rewrite qset_lookup by done. by rewrite qset_qset. }
      destruct (q_sessions s !! k) as [[x t]|] eqn:Hk.
      - destruct (t <? th)%Z eqn:Ht.
        + exists 2. rewrite qrun_replicate_S, Hst, qrun_replicate_S. cbn [replicate qrun foldl]. unfold qstep. rewrite qset_lookup by done.
          rewrite qsessions_qset, qset_qset. f_equal. unfold s1, qsessions. f_equal. rewrite Hk, Ht. done.
        + exists 1. rewrite qrun_replicate_S, Hst. cbn [replicate qrun foldl]. f_equal. unfold s1, qsessions. rewrite Hk, Ht. by destruct s.
      - exists 1. rewrite qrun_replicate_S, Hst. cbn [replicate qrun foldl]. f_equal. unfold s1, qsessions. rewrite Hk. by destruct s. }
    destruct H1 as [n1 H1]. destruct (IH s1) as [n2 H2]; [done|]. exists (n1 + n2). rewrite qrun_replicate_app, H1, H2.
    f_equal. unfold s1, qsessions. cbn [q_sessions q_packets q_pushed q_removed q_sent q_threads]. f_equal. apply filter_visit.
Qed.

Definition sent_by (now : Z) (t : qthread) (s : store) : list (list value) :=
  match operation t with SBcast id b => [(sbroadcast now id b s).2] | _ => [] end.
(** The result of a restoration. *)
Definition result_is (now : Z) (t t' : qthread) (s : store) : Prop :=
  match t with QRestore o pid off _ => t' = QRestore o pid off (QRdone (restore o now pid off s).2) | _ => True end.
Lemma store_alone max i now s t : q_threads s !! i = Some t → untouched_call t →
  (∀ ks pc, t = QCleanup ks pc → ∀ pid, is_Some (q_sessions s !! pid) → pid ∈ ks) →
  ∃ n t', q_threads (qrun max s (replicate n (i, now))) = <[i := t']> (q_threads s) ∧ ended_call t' ∧ result_is now t t' (state_store max s) ∧
    state_store max (qrun max s (replicate n (i, now))) = sstep (now, operation t) (state_store max s) ∧
    q_sent (qrun max s (replicate n (i, now))) = q_sent s ++ sent_by now t (state_store max s).
Proof.
  intros Hi Hu Hks. assert (Hlt : i < length (q_threads s)) by (by eapply lookup_lt_Some).
  assert (Es : s = qset s i t) by (unfold qset; rewrite list_insert_id by done; by destruct s).
  destruct t as [id b pc|o pid off pc|x pc|ks pc]; cbn in Hu; subst pc.
  - (* Broadcast *)
    destruct (storable b) eqn:Hb.
    + exists 3, (QBcast id b QBdone).
      assert (E : qrun max s (replicate 3 (i, now)) =
        qset (qsend (qdata id b) (qpush (SPacket id now (qdata id b) (bc_opts b)) s)) i (QBcast id b QBdone)).
      { rewrite Es at 1. rewrite qrun_replicate_S. unfold qstep. rewrite qset_lookup by done. rewrite Hb, qset_qset.
        rewrite qrun_replicate_S. unfold qstep. rewrite qset_lookup by done.
        change (qpush ?p (qset s i ?t)) with (qset (qpush p s) i t). rewrite qset_qset.
        rewrite qrun_replicate_S. cbn [replicate qrun foldl]. unfold qstep. rewrite qset_lookup by done.
        change (qsend ?p (qset ?s i ?t)) with (qset (qsend p s) i t). by rewrite qset_qset. }
      rewrite E. split_and!; [done..| |].
      * unfold state_store, sstep, sbroadcast, qdata. cbn. rewrite Hb. done.
      * unfold sent_by, sbroadcast, qdata. cbn. rewrite Hb. done.
    + exists 2, (QBcast id b QBdone).
      assert (E : qrun max s (replicate 2 (i, now)) = qset (qsend (qdata id b) s) i (QBcast id b QBdone)).
      { rewrite Es at 1. rewrite qrun_replicate_S. unfold qstep. rewrite qset_lookup by done. rewrite Hb, qset_qset.
        rewrite qrun_replicate_S. cbn [replicate qrun foldl]. unfold qstep. rewrite qset_lookup by done.
        change (qsend ?p (qset ?s i ?t)) with (qset (qsend p s) i t). by rewrite qset_qset. }
      rewrite E. split_and!; [done..| |].
      * unfold state_store, sstep, sbroadcast. cbn. rewrite Hb. done.
      * unfold sent_by, sbroadcast, qdata. cbn. rewrite Hb. done.
  - (* RestoreSession *)
    unfold result_is. cbn [operation sent_by]. unfold sent_by. cbn [operation]. setoid_rewrite app_nil_r.
    assert (H1 : qrun max s (replicate 1 (i, now)) =
      qset s i (QRestore o pid off (match q_sessions s !! pid with Some (x, t) => QRtest x t | None => QRdone RFresh end))).
    { rewrite Es at 1. rewrite qrun_replicate_S. cbn [replicate qrun foldl]. unfold qstep. rewrite qset_lookup by done. by rewrite qset_qset. }
    unfold sstep. cbn [fst snd]. unfold restore. cbn [st_sessions state_store st_max st_packets].
    destruct (q_sessions s !! pid) as [[x t]|] eqn:Hp.
    2: { exists 1. eexists. rewrite H1. split_and!; [reflexivity|by eexists|done..]. }
    assert (H2 : qrun max s (replicate 2 (i, now)) = qset s i (QRestore o pid off (if (t + max <? now)%Z then QRdelete else QRfind x))).
    { change 2 with (1 + 1). rewrite qrun_replicate_app, H1. rewrite qrun_replicate_S. cbn [replicate qrun foldl]. unfold qstep.
      rewrite qset_lookup by done. by rewrite qset_qset. }
    destruct (t + max <? now)%Z eqn:Hexp.
    { exists 3, (QRestore o pid off (QRdone RFresh)). 
      assert (E : qrun max s (replicate 3 (i, now)) = qset (qsessions (delete pid) s) i (QRestore o pid off (QRdone RFresh))).
      { change 3 with (2 + 1). rewrite qrun_replicate_app, H2. rewrite qrun_replicate_S. cbn [replicate qrun foldl]. unfold qstep.
        rewrite qset_lookup by done. by rewrite qsessions_qset, qset_qset. }
      rewrite E. split_and!; [done|by eexists|done..]. }
    assert (H3 : qrun max s (replicate 3 (i, now)) =
      qset s i (QRestore o pid off (match find_index off (q_packets s) with Some n => QRmake x n | None => QRdone RFresh end))).
    { change 3 with (2 + 1). rewrite qrun_replicate_app, H2. rewrite qrun_replicate_S. cbn [replicate qrun foldl]. unfold qstep.
        rewrite qset_lookup by done. by rewrite qset_qset. }
    rewrite find_index_after. destruct (find_index off (q_packets s)) as [n|] eqn:Hf; cbn [fmap option_fmap option_map].
    2: { exists 3. eexists. rewrite H3. split_and!; [reflexivity|by eexists|done..]. }
    assert (H4 : qrun max s (replicate 4 (i, now)) = qset s i (QRestore o pid off (QRloop x (S n) []))).
    { change 4 with (3 + 1). rewrite qrun_replicate_app, H3. rewrite qrun_replicate_S. cbn [replicate qrun foldl]. unfold qstep.
      rewrite qset_lookup by done. cbn [q_packets qset]. apply find_index_lt in Hf.
      destruct (Nat.ltb_spec n (length (q_packets s))); [|lia]. by rewrite qset_qset. }
    destruct (restore_loop max i now o pid off x s Hlt _ (S n) [] (le_n _)) as [k Hk].
    exists (4 + k), (QRestore o pid off (QRdone (loop_result o x [] (drop (S n) (q_packets s))))). rewrite qrun_replicate_app, H4, Hk.
    unfold loop_result. destruct (missed_loop (o (se_rooms x)) (drop (S n) (q_packets s))); (split_and!; [reflexivity|by eexists|done..]).
  - (* PersistSession *)
    exists 2, (QPersist x QPdone). unfold sent_by. cbn [operation]. rewrite app_nil_r.
    assert (E : qrun max s (replicate 2 (i, now)) = qset (qsessions (insert (se_pid x) (x, now)) s) i (QPersist x QPdone)).
    { rewrite Es at 1. rewrite qrun_replicate_S. unfold qstep. rewrite qset_lookup by done. rewrite qset_qset.
      rewrite qrun_replicate_S. cbn [replicate qrun foldl]. unfold qstep. rewrite qset_lookup by done. by rewrite qsessions_qset, qset_qset. }
    rewrite E. split_and!; done.
  - (* cleanup *)
    assert (H1 : qrun max s (replicate 1 (i, now)) = qset s i (QCleanup ks (QCvisit (now - max)%Z ks))).
    { rewrite Es at 1. rewrite qrun_replicate_S. cbn [replicate qrun foldl]. unfold qstep. rewrite qset_lookup by done. by rewrite qset_qset. }
    destruct (cleanup_loop max i now ks (now - max)%Z ks s Hlt) as [k Hk].
    set (s2 := qsessions (filter (λ kv, ¬ (kv.1 ∈ ks ∧ (kv.2.2 < now - max)%Z))) s) in *.
    exists (1 + (k + 1)), (QCleanup ks QCdone). rewrite qrun_replicate_app, H1, qrun_replicate_app, Hk.
    assert (E : qrun max (qset s2 i (QCleanup ks (QCsplice (now - max)%Z))) (replicate 1 (i, now)) = qset (qsplice (now - max)%Z s2) i (QCleanup ks QCdone)).
    { rewrite qrun_replicate_S. cbn [replicate qrun foldl]. unfold qstep. rewrite qset_lookup by done.
      change (qsplice ?th (qset s2 i ?t)) with (qset (qsplice th s2) i t). by rewrite qset_qset. }
    rewrite E. unfold sent_by. cbn [operation]. rewrite app_nil_r. split_and!; [done..| |done].
    unfold state_store, sstep, cleanup. cbn. f_equal. apply map_filter_ext. intros j [y t] Hj. cbn. 
    specialize (Hks ks QC0 eq_refl j (mk_is_Some _ _ Hj)). split; [intros H Hlt'; by apply H|intros H [_ Hlt']; by apply H].
Qed.

(** ** Blocks of calls on the store *)
Lemma q_other max (e : nat * Z) s j : j ≠ e.1 → q_threads (qstep max s e) !! j = q_threads s !! j.
Proof.
  destruct e as [i now]. cbn [fst]. intros Hne. unfold qstep. destruct (q_threads s !! i) as [t|]; [|done].
  assert (H : ∀ s' t', q_threads s' = q_threads s → q_threads (qset s' i t') !! j = q_threads s !! j).
  { intros s' t' E. cbn. rewrite list_lookup_insert_ne by done. by rewrite E. }
  destruct t as [id b pc|o pid off pc|x pc|ks pc]; destruct pc; repeat case_match; try done; by apply H.
Qed.
Lemma q_block_other max e n s j : j ≠ e.1 → q_threads (qrun max s (replicate n e)) !! j = q_threads s !! j.
Proof.
  intros Hne. revert s. induction n as [|n IH]; intros s; [done|]. destruct e as [i now]. rewrite qrun_replicate_S.
  rewrite IH. by apply (q_other max (i, now)).
Qed.
Lemma qrun_app max s l1 l2 : qrun max s (l1 ++ l2) = qrun max (qrun max s l1) l2.
Proof. unfold qrun. apply foldl_app. Qed.
Lemma one_by_one_cons {A} (e : A) n bs : one_by_one ((e, n) :: bs) = replicate n e ++ one_by_one bs.
Proof. done. Qed.
Lemma one_by_one_app {A} (b1 b2 : list (A * nat)) : one_by_one (b1 ++ b2) = one_by_one b1 ++ one_by_one b2.
Proof. unfold one_by_one. by rewrite fmap_app, concat_app. Qed.
Lemma q_blocks_other max (blocks : list ((nat * Z) * nat)) j : j ∉ (λ b, b.1.1) <$> blocks → ∀ s,
  q_threads (qrun max s (one_by_one blocks)) !! j = q_threads s !! j.
Proof.
  induction blocks as [|[[i now] n] bs IH]; intros Hj s; [done|]. cbn in Hj. apply not_elem_of_cons in Hj as [Hne Hj].
  assert (Eob : one_by_one ((i, now, n) :: bs) = replicate n (i, now) ++ one_by_one bs) by done.
  rewrite Eob, qrun_app. rewrite IH by done. by apply (q_block_other max (i, now)).
Qed.
Lemma qrun_ends max s i now t n m t' t'' : q_threads s !! i = Some t →
  q_threads (qrun max s (replicate n (i, now))) !! i = Some t' → ended_call t' →
  q_threads (qrun max s (replicate m (i, now))) !! i = Some t'' → ended_call t'' →
  qrun max s (replicate m (i, now)) = qrun max s (replicate n (i, now)).
Proof.
  intros _ Hn He Hm He'. destruct (decide (n ≤ m)) as [Hle|Hle].
  - replace m with (n + (m - n)) by lia. rewrite qrun_replicate_app. by eapply ended_stays.
  - replace n with (m + (n - m)) by lia. rewrite qrun_replicate_app. symmetry. by eapply ended_stays.
Qed.

Lemma sstep_sessions e s pid : is_Some (st_sessions (sstep e s) !! pid) →
  is_Some (st_sessions s !! pid) ∨ ∃ x, e.2 = SPersist x ∧ se_pid x = pid.
Proof.
  destruct e as [now op]. unfold sstep. cbn [fst snd]. destruct op as [x|id b| |o p off].
  - cbn. destruct (decide (se_pid x = pid)) as [<-|Hne]; [intros _; right; by exists x|]. rewrite lookup_insert_ne by done. by left.
  - unfold sbroadcast. destruct (storable b); cbn; by left.
  - cbn. intros [y Hy]. apply map_filter_lookup_Some in Hy as [Hy _]. left. by exists y.
  - unfold restore. destruct (st_sessions s !! p) as [[x t]|] eqn:Hp; [|cbn; by left].
    destruct (t + st_max s <? now)%Z; cbn.
    + intros [y Hy]. apply lookup_delete_Some in Hy as [_ Hy]. left. by exists y.
    + destruct (after_offset _ _); [|by left]. destruct (missed_loop _ _); by left.
Qed.
(** The cleanups of the blocks visit every session there may be. *)
Definition vis (s : qstate) (is : list nat) : Prop := ∀ i ks pc pid, i ∈ is → q_threads s !! i = Some (QCleanup ks pc) →
  (is_Some (q_sessions s !! pid) ∨ ∃ j x pc', j ∈ is ∧ q_threads s !! j = Some (QPersist x pc') ∧ se_pid x = pid) → pid ∈ ks.
Notation ids := (fmap (λ b : (nat * Z) * nat, b.1.1)).
Lemma calls_of_ext ts ts' (blocks : list ((nat * Z) * nat)) : (∀ i, i ∈ ids blocks → ts !! i = ts' !! i) → calls_of ts blocks = calls_of ts' blocks.
Proof.
  induction blocks as [|b bs IH]; intros H; [done|]. unfold calls_of. cbn [omap list_omap]. rewrite (H b.1.1) by (cbn; left).
  unfold calls_of in IH. rewrite IH; [done|]. intros i Hi. apply H. cbn. by right.
Qed.
Lemma store_blocks max (blocks : list ((nat * Z) * nat)) : ∀ s, NoDup (ids blocks) →
  (∀ i t, i ∈ ids blocks → q_threads s !! i = Some t → untouched_call t) → vis s (ids blocks) →
  all_ended (qrun max s (one_by_one blocks)) (ids blocks) →
  state_store max (qrun max s (one_by_one blocks)) = store_after (state_store max s) (calls_of (q_threads s) blocks) ∧
  q_sent (qrun max s (one_by_one blocks)) = q_sent s ++ handed (state_store max s) (calls_of (q_threads s) blocks).
Proof.
  induction blocks as [|[[i now] n] bs IH]; intros s Hnd Hst Hvis Hend.
  { cbn. by rewrite app_nil_r. }
  rewrite one_by_one_cons, qrun_app in *. cbn [fmap list_fmap fst] in *. apply NoDup_cons in Hnd as [Hni Hnd].
  apply Forall_cons in Hend as [(ti & Hti & Hei) Hend]. rewrite q_blocks_other in Hti by done.
  destruct (q_threads s !! i) as [t|] eqn:Ht.
  2: { exfalso. assert (E : qrun max s (replicate n (i, now)) = s).
       { clear -Ht. induction n as [|n IH]; [done|]. rewrite qrun_replicate_S. unfold qstep. by rewrite Ht. }
       rewrite E in Hti. congruence. }
  destruct (store_alone max i now s t Ht) as (m & t' & Eth & Het & _ & Est & Esent).
  { apply (Hst i); [left|done]. }
  { intros ks pc -> pid Hp. eapply (Hvis i); [left|done|by left]. }
  assert (Hm : q_threads (qrun max s (replicate m (i, now))) !! i = Some t').
  { rewrite Eth. apply list_lookup_insert. by eapply lookup_lt_Some. }
  rewrite (qrun_ends max s i now t m n t' ti Ht Hm Het Hti Hei) in *.
  assert (Hoth : ∀ j, j ∈ ids bs → q_threads (qrun max s (replicate m (i, now))) !! j = q_threads s !! j).
  { intros j Hj. apply (q_block_other max (i, now)). cbn. by intros ->. }
  destruct (IH (qrun max s (replicate m (i, now)))) as [E1 E2]; [done| | |done|].
  { intros j tj Hj. rewrite Hoth by done. apply Hst. by right. }
  { intros j ks pc pid Hj Hjt Hp. rewrite Hoth in Hjt by done. eapply (Hvis j); [by right|done|].
    destruct Hp as [Hp|(j' & x & pc' & Hj' & Hx & Epid)].
    - assert (Hss : is_Some (st_sessions (state_store max (qrun max s (replicate m (i, now)))) !! pid)) by done.
      rewrite Est in Hss. apply sstep_sessions in Hss as [Hs|(x & Ex & Epid)]; [by left|]. right. cbn in Ex.
      destruct t as [? ? ?|? ? ? ?|x' pc''|? ?]; cbn in Ex; try done. injection Ex as ->. exists i, x, pc''. split_and!; [left|done|done].
    - right. rewrite Hoth in Hx by done. exists j', x, pc'. split_and!; [by right|done|done]. }
  rewrite E1, E2, Est, Esent, (calls_of_ext _ (q_threads s)) by done.
  assert (Ec : calls_of (q_threads s) ((i, now, n) :: bs) = (now, operation t) :: calls_of (q_threads s) bs).
  { unfold calls_of. cbn [omap list_omap fst snd]. by rewrite Ht. }
  rewrite Ec. split; [done|]. cbn [handed fst snd]. unfold sent_by. by rewrite app_assoc.
Qed.
Lemma vis_init ses ps ts is : visits_all ses ts → vis (qinit ses ps ts) is.
Proof.
  intros Hv i ks pc pid _ Hi Hp. cbn in *. apply elem_of_list_lookup_2 in Hi. eapply Hv; [exact Hi|].
  destruct Hp as [Hp|(j & x & pc' & _ & Hj & Ep)]; [by left|right]. exists x, pc'. split; [by eapply elem_of_list_lookup_2|done].
Qed.
Lemma store_one_by_one max ses ps ts (blocks : list ((nat * Z) * nat)) : NoDup (ids blocks) → Forall untouched_call ts → visits_all ses ts →
  all_ended (qrun max (qinit ses ps ts) (one_by_one blocks)) (ids blocks) →
  state_store max (qrun max (qinit ses ps ts) (one_by_one blocks)) = store_after (Store max ses ps) (calls_of ts blocks) ∧
  q_sent (qrun max (qinit ses ps ts) (one_by_one blocks)) = handed (Store max ses ps) (calls_of ts blocks).
Proof.
  intros Hnd Hu Hv He. apply (store_blocks max blocks (qinit ses ps ts)); [done| |by apply vis_init|done].
  intros i t _ Ht. cbn in Ht. rewrite Forall_forall in Hu. apply Hu. by eapply elem_of_list_lookup_2.
Qed.
Lemma store_restores max ses ps ts (b1 b2 : list ((nat * Z) * nat)) i now n o pid off : 
  let blocks := b1 ++ ((i, now), n) :: b2 in NoDup (ids blocks) → Forall untouched_call ts → visits_all ses ts →
  all_ended (qrun max (qinit ses ps ts) (one_by_one blocks)) (ids blocks) → ts !! i = Some (QRestore o pid off QR0) →
  q_threads (qrun max (qinit ses ps ts) (one_by_one blocks)) !! i =
    Some (QRestore o pid off (QRdone (restore o now pid off (store_after (Store max ses ps) (calls_of ts b1))).2)).
Proof.
  cbv zeta. intros Hnd Hu Hv He Hi. rewrite fmap_app in Hnd. cbn [fmap list_fmap fst] in Hnd.
  apply NoDup_app in Hnd as (Hnd1 & Hdisj & Hnd2). apply NoDup_cons in Hnd2 as [Hni Hnd2].
  assert (Hi1 : i ∉ ids b1) by (intros H; apply (Hdisj i H); left).
  rewrite one_by_one_app, one_by_one_cons, !qrun_app in *. rewrite q_blocks_other by done.
  unfold all_ended in He. rewrite fmap_app in He. apply Forall_app in He as [He1 He2]. cbn [fmap list_fmap fst] in He2.
  apply Forall_cons in He2 as [(ti & Hti & Hei) _]. rewrite q_blocks_other in Hti by done.
  set (s1 := qrun max (qinit ses ps ts) (one_by_one b1)) in *.
  assert (Hs1 : q_threads s1 !! i = Some (QRestore o pid off QR0)) by (unfold s1; by rewrite q_blocks_other).
  assert (Est1 : state_store max s1 = store_after (Store max ses ps) (calls_of ts b1)).
  { apply store_one_by_one; [done..|]. apply Forall_forall. intros j Hj. destruct (proj1 (Forall_forall _ _) He1 j Hj) as (tj & Htj & Hej). exists tj. split; [|done].
    rewrite <- Htj. rewrite (q_blocks_other max b2 j); [|intros H; apply (Hdisj j Hj); right; exact H].
    symmetry. apply (q_block_other max (i, now)). cbn. by intros ->. }
  destruct (store_alone max i now s1 _ Hs1) as (m & t' & Eth & Het & Eres & _ & _); [done|done|].
  assert (Hm : q_threads (qrun max s1 (replicate m (i, now))) !! i = Some t').
  { rewrite Eth. apply list_lookup_insert. by eapply lookup_lt_Some. }
  rewrite (qrun_ends max s1 i now _ m n t' ti Hs1 Hm Het Hti Hei), Hm. cbn in Eres. by rewrite Eres, Est1.
Qed.
(** Each call returns. *)
Lemma store_blocks_end max (calls : list (nat * Z)) : ∀ s, NoDup calls.*1 →
  (∀ i, i ∈ calls.*1 → ∃ t, q_threads s !! i = Some t ∧ untouched_call t) → vis s calls.*1 →
  ∃ blocks, blocks.*1 = calls ∧ all_ended (qrun max s (one_by_one blocks)) calls.*1.
Proof.
  induction calls as [|[i now] cs IH]; intros s Hnd Hst Hvis.
  { exists []. by split; [|constructor]. }
  cbn [fmap list_fmap fst] in *. apply NoDup_cons in Hnd as [Hni Hnd]. destruct (Hst i) as (t & Ht & Hu); [left|].
  destruct (store_alone max i now s t Ht Hu) as (m & t' & Eth & Het & _ & Est & _).
  { intros ks pc -> pid Hp. eapply (Hvis i); [left|done|by left]. }
  assert (Hoth : ∀ j, j ∈ cs.*1 → q_threads (qrun max s (replicate m (i, now))) !! j = q_threads s !! j).
  { intros j Hj. apply (q_block_other max (i, now)). cbn. by intros ->. }
  destruct (IH (qrun max s (replicate m (i, now)))) as (bs & Ebs & Hbs); [done| | |].
  { intros j Hj. rewrite Hoth by done. apply Hst. by right. }
  { intros j ks pc pid Hj Hjt Hp. rewrite Hoth in Hjt by done. eapply (Hvis j); [by right|done|].
    destruct Hp as [Hp|(j' & x & pc' & Hj' & Hx & Epid)].
    - assert (Hss : is_Some (st_sessions (state_store max (qrun max s (replicate m (i, now)))) !! pid)) by done.
      rewrite Est in Hss. apply sstep_sessions in Hss as [Hs|(x & Ex & Epid)]; [by left|]. right. cbn in Ex.
      destruct t as [? ? ?|? ? ? ?|x' pc''|? ?]; cbn in Ex; try done. injection Ex as ->. exists i, x, pc''. split_and!; [left|done|done].
    - right. rewrite Hoth in Hx by done. exists j', x, pc'. split_and!; [by right|done|done]. }
  exists (((i, now), m) :: bs). cbn [fmap list_fmap fst]. rewrite Ebs. split; [done|].
  rewrite one_by_one_cons, qrun_app. constructor; [|done]. exists t'. split; [|done]. rewrite q_blocks_other.
  - rewrite Eth. apply list_lookup_insert. by eapply lookup_lt_Some.
  - intros H. apply Hni. rewrite <- Ebs. rewrite <- list_fmap_compose. exact H.
Qed.
Lemma store_each_ends max ses ps ts (calls : list (nat * Z)) : NoDup calls.*1 → Forall (λ i, i < length ts) calls.*1 →
  Forall untouched_call ts → visits_all ses ts →
  ∃ blocks, blocks.*1 = calls ∧ all_ended (qrun max (qinit ses ps ts) (one_by_one blocks)) calls.*1.
Proof.
  intros Hnd Hlt Hu Hv. apply store_blocks_end; [done| |by apply vis_init]. intros i Hi. rewrite Forall_forall in Hlt.
  destruct (lookup_lt_is_Some_2 _ _ (Hlt i Hi)) as [t Ht]. exists t. split; [done|]. rewrite Forall_forall in Hu. apply Hu.
  by eapply elem_of_list_lookup_2.
Qed.
