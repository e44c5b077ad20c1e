(** Proofs for C69. *)
From Verif Require Import Base GoTypes Rooms RoomsSpec RoomsProofs Adapter AdapterSpec AdapterProofs AdapterRun AdapterRunSpec AdapterRunProofs
  BcastAck BcastAckSpec BcastAckProofs Family FamilySpec.

Lemma omap_ext_in {A B} (f g : A → option B) (l : list A) : (∀ x, x ∈ l → f x = g x) → omap f l = omap g l.
Proof. induction l as [|x l IH]; intros H; [done|]. cbn. rewrite (H x) by (by left). rewrite IH; [done|]. intros y Hy. apply H. by right. Qed.

Lemma bserial_more c es : bserial 1 false (EbCount c :: EbFinish :: es) = foldl (bserial1 1 false) (bserial 1 false [EbCount c; EbFinish]) es.
Proof. unfold bserial. by rewrite <- foldl_app. Qed.
#[local] Opaque bserial.
Section family.
  Context {P : Type} (rep : bool).
  Notation st := (family P).
  Lemma empty_wf : ns_wf (empty_ns : nspace P).
  Proof. apply (ns_run_wf rep []). constructor. Qed.
  Lemma apply_empty (cb : asock → nspace P → nspace P) o opts : orders_ok o → apply_ns cb o opts empty_ns = (empty_ns, []).
  Proof.
    intros Ho. destruct (apply_wf (λ s, s = empty_ns) cb o opts empty_ns Ho empty_wf eq_refl) as (_ & H1 & H2 & _).
    - intros s id a -> H. cbn in H. by rewrite lookup_empty in H.
    - destruct (apply_ns cb o opts empty_ns) as [s l]. cbn in *. subst s. f_equal. destruct l as [|x l]; [done|]. exfalso.
      destruct (proj1 (H2 x)) as [[a H] _]; [by left|]. cbn in H. by rewrite lookup_empty in H.
  Qed.
  Lemma each_emit p os opts l (s : st) : NoDup l → let s' := foldl (λ s n, kid_emit p os opts n s) s l in
    fa_own s' = fa_own s ∧ fa_count s' = fa_count s ∧ fa_asks s' = fa_asks s ∧
    ∀ m, fa_kids s' !! m = (if decide (m ∈ l) then broadcast p (os m) opts <$> fa_kids s !! m else fa_kids s !! m).
  Proof.
    revert s. induction l as [|n l IH]; intros s Hnd; cbn; [done|]. apply NoDup_cons in Hnd as [Hn Hnd].
    destruct (IH (kid_emit p os opts n s) Hnd) as (H1 & H2 & H3 & H4). split_and!; [done..|]. intros m. rewrite H4. cbn.
    destruct (decide (m = n)) as [->|Hne].
    - rewrite decide_False by done. rewrite decide_True by set_solver. by rewrite lookup_alter.
    - rewrite lookup_alter_ne by done. destruct (decide (m ∈ l)); [rewrite decide_True by set_solver|rewrite decide_False by set_solver]; done.
  Qed.
  Definition asks_of (j : nat) (p : P) (os : nat → orders) (s : st) (l : list nat) : list (nat * bst) :=
    omap (λ n, (λ ns, (ask j p (os n) all_children_opts ns).2) <$> fa_kids s !! n) l.
  Lemma each_ask j p os l (s : st) : NoDup l → let s' := foldl (λ s n, kid_ask j p os n s) s l in
    fa_own s' = fa_own s ∧ fa_count s' = fa_count s ∧ fa_asks s' = fa_asks s ++ asks_of j p os s l ∧
    ∀ m, fa_kids s' !! m = (if decide (m ∈ l) then broadcast p (os m) None <$> fa_kids s !! m else fa_kids s !! m).
  Proof.
    revert s. induction l as [|n l IH]; intros s Hnd; cbn [foldl]; [cbn; by rewrite app_nil_r|]. apply NoDup_cons in Hnd as [Hn Hnd].
    destruct (IH (kid_ask j p os n s) Hnd) as (H1 & H2 & H3 & H4). rewrite H1, H2, H3. setoid_rewrite H4. unfold kid_ask. cbn [asks_of omap list_omap].
    destruct (fa_kids s !! n) as [ns|] eqn:E; cbn [fmap option_fmap option_map fa_own fa_count fa_asks fa_kids].
    - split_and!; [done..| |].
      + rewrite <- app_assoc. cbn. f_equal. f_equal. apply omap_ext_in. intros m Hm. cbn. rewrite lookup_insert_ne; [done|]. intros ->. done.
      + intros m. destruct (decide (m = n)) as [->|Hne].
        * rewrite decide_False by done. rewrite decide_True by set_solver. by rewrite lookup_insert, E.
        * rewrite lookup_insert_ne by done. destruct (decide (m ∈ l)); [rewrite decide_True by set_solver|rewrite decide_False by set_solver]; done.
    - split_and!; [done..|]. intros m. destruct (decide (m = n)) as [->|Hne].
      + rewrite decide_False by done. rewrite decide_True by set_solver. by rewrite E.
      + destruct (decide (m ∈ l)); [rewrite decide_True by set_solver|rewrite decide_False by set_solver]; done.
  Qed.
  Lemma keys_NoDup ks X : keys_ok ks → NoDup (ks X).
  Proof. intros H. rewrite (H X). apply NoDup_elements. Qed.
  Lemma keys_elem ks X n : keys_ok ks → n ∈ ks X ↔ n ∈ X.
  Proof. intros H. rewrite (H X). apply elem_of_elements. Qed.
  Lemma kid_snoc n (h : list (fop P)) op : kid n (h ++ [op]) = kid_step n (kid n h) op.
  Proof. unfold kid. by rewrite foldl_app. Qed.
  Lemma f_run_snoc (h : list (fop P)) op : f_run rep (h ++ [op]) = f_step rep (f_run rep h) op.
  Proof. unfold f_run. by rewrite foldl_app. Qed.
  Lemma asked_app (h1 h2 : list (fop P)) : asked (h1 ++ h2) = asked h1 + asked h2.
  Proof. unfold asked. by rewrite omap_app, app_length. Qed.
  Lemma run_snoc_map (o : option (list (nsop P))) op : ns_run rep <$> ((λ l, l ++ [op]) <$> o) = (λ ns, ns_step rep ns op) <$> (ns_run rep <$> o).
  Proof. destruct o as [l|]; [|done]. change (Some (ns_run rep (l ++ [op])) = Some (ns_step rep (ns_run rep l) op)). by rewrite ns_run_snoc. Qed.

  Lemma run_inv (h : list (fop P)) : Forall fop_ok h →
    fa_own (f_run rep h) = empty_ns ∧ fa_count (f_run rep h) = asked h ∧ ∀ n, fa_kids (f_run rep h) !! n = ns_run rep <$> kid n h.
  Proof.
    induction h as [|op h IH] using rev_ind; intros Hok; [split_and!; [done..|]; intros n; apply lookup_empty|].
    apply Forall_app in Hok as [Hok Ho]. pose proof (proj1 (Forall_singleton _ _) Ho) as Ho1. clear Ho. rename Ho1 into Ho.
    destruct (IH Hok) as (I1 & I2 & I3). rewrite f_run_snoc, asked_app. setoid_rewrite kid_snoc. set (s := f_run rep h) in *.
    destruct op as [n|n|n op|p ks os|p ks os opts|p ks os|p o opts|o opts rs|o opts rs|o opts|i r]; cbn [f_step kid_step fop_ok] in *.
    - change (asked [FCreate n : fop P]) with 0. rewrite Nat.add_0_r. destruct (fa_kids s !! n) as [ns|] eqn:E; cbn [set_kids fa_own fa_count fa_kids]; split_and!; try done; intros m.
      + destruct (decide (n = m)) as [<-|]; [|by apply I3]. rewrite I3 in E |- *. by destruct (kid n h).
      + destruct (decide (n = m)) as [<-|]; [|by rewrite lookup_insert_ne by done]. rewrite lookup_insert. rewrite I3 in E. by destruct (kid n h).
    - change (asked [FDrop n : fop P]) with 0. rewrite Nat.add_0_r. split_and!; [done..|]. intros m. cbn.
      destruct (decide (n = m)) as [<-|]; [by rewrite lookup_delete|by rewrite lookup_delete_ne by done].
    - change (asked [FChild n op : fop P]) with 0. rewrite Nat.add_0_r. split_and!; [done..|]. intros m. cbn.
      destruct (decide (n = m)) as [<-|]; [|by rewrite lookup_alter_ne by done]. by rewrite lookup_alter, I3, run_snoc_map.
    - change (asked [FEmit p ks os : fop P]) with 0. rewrite Nat.add_0_r. destruct Ho as [Hk Ho]. unfold each.
      destruct (each_emit p os all_children_opts (ks (dom (fa_kids s))) s (keys_NoDup _ _ Hk)) as (H1 & H2 & _ & H4). rewrite H1, H2. split_and!; [done..|]. intros m.
      rewrite H4, run_snoc_map, <- I3. case_decide as Hm; [done|]. rewrite keys_elem, elem_of_dom in Hm by done. apply eq_None_not_Some in Hm. by rewrite Hm.
    - change (asked [FVia p ks os opts : fop P]) with 0. rewrite Nat.add_0_r. destruct Ho as [Hk Ho]. unfold each.
      destruct (each_emit p os opts (ks (dom (fa_kids s))) s (keys_NoDup _ _ Hk)) as (H1 & H2 & _ & H4). rewrite H1, H2. split_and!; [done..|]. intros m.
      rewrite H4, run_snoc_map, <- I3. case_decide as Hm; [done|]. rewrite keys_elem, elem_of_dom in Hm by done. apply eq_None_not_Some in Hm. by rewrite Hm.
    - change (asked [FEmitAck p ks os : fop P]) with 1. destruct Ho as [Hk Ho]. unfold each.
      destruct (each_ask (fa_count s) p os (ks (dom (fa_kids s))) s (keys_NoDup _ _ Hk)) as (H1 & H2 & _ & H4). cbn [counted fa_own fa_count fa_kids].
      rewrite H1, H2. split_and!; [done|lia|]. intros m.
      rewrite H4, run_snoc_map, <- I3. case_decide as Hm; [done|]. rewrite keys_elem, elem_of_dom in Hm by done. apply eq_None_not_Some in Hm. by rewrite Hm.
    - change (asked [FViaAck p o opts : fop P]) with 1. cbn. rewrite I1, apply_empty by done. split_and!; [done|lia|done].
    - change (asked [FJoin o opts rs : fop P]) with 0. rewrite Nat.add_0_r. cbn. unfold add_sockets. by rewrite I1, apply_empty by done.
    - change (asked [FLeave o opts rs : fop P]) with 0. rewrite Nat.add_0_r. cbn. unfold del_sockets. by rewrite I1, apply_empty by done.
    - change (asked [FDisconnect o opts : fop P]) with 0. rewrite Nat.add_0_r. cbn. unfold disconnect_sockets. by rewrite I1, apply_empty by done.
    - change (asked [FAnswer i r : fop P]) with 0. rewrite Nat.add_0_r. done.
  Qed.
  Lemma c69_children_l (h : list (fop P)) n : Forall fop_ok h → fa_kids (f_run rep h) !! n = ns_run rep <$> kid n h.
  Proof. intros H. apply run_inv, H. Qed.
  Lemma kid_ok (h : list (fop P)) n l : Forall fop_ok h → kid n h = Some l → Forall nsop_ok l.
  Proof.
    revert l. induction h as [|op h IH] using rev_ind; intros l Hok; [done|]. apply Forall_app in Hok as [Hok Ho]. pose proof (proj1 (Forall_singleton _ _) Ho) as Ho1. clear Ho. rename Ho1 into Ho.
    rewrite kid_snoc. specialize (λ l, IH l Hok). assert (∀ o, nsop_ok o → (λ l, l ++ [o]) <$> kid n h = Some l → Forall nsop_ok l) as Hs.
    { intros o H (l' & E & ->)%fmap_Some. apply Forall_app. split; [by apply IH|]. by constructor. }
    destruct op as [m|m|m op|p ks os|p ks os opts|p ks os|p o opts|o opts rs|o opts rs|o opts|i r]; cbn [kid_step fop_ok] in *; try (by apply IH).
    - case_decide; [|by apply IH]. intros [= <-]. destruct (kid n h) as [l|]; cbn; [by apply IH|constructor].
    - case_decide; [done|by apply IH].
    - case_decide; [by apply Hs|by apply IH].
    - apply Hs. apply Ho.
    - apply Hs. apply Ho.
    - apply Hs. apply Ho.
  Qed.
  Lemma c69_received_l (h : list (fop P)) n l : Forall fop_ok h → kid n h = Some l → ∃ ns, fa_kids (f_run rep h) !! n = Some ns ∧
    (∀ id, listed ns id ↔ v_listed (view_of l) id) ∧ (∀ id r, in_room ns id r ↔ v_in (view_of l) id r) ∧ ∀ id x, received l id x ↔ packets_of id ns = x.
  Proof. intros H E. exists (ns_run rep l). split; [by rewrite c69_children_l, E|]. apply ns_histories. exact (kid_ok h n l H E). Qed.
  Lemma c69_bulk_l (h : list (fop P)) op : Forall fop_ok (h ++ [op]) → is_bulk op → f_run rep (h ++ [op]) = f_run rep h.
  Proof.
    intros [Hok Ho]%Forall_app Hb. pose proof (proj1 (Forall_singleton _ _) Ho) as Ho1. clear Ho. rename Ho1 into Ho. rewrite f_run_snoc. destruct (run_inv h Hok) as (I1 & _ & _).
    destruct (f_run rep h) as [own kids cnt asks]. cbn in I1. subst own.
    destruct op; try done; cbn in *; unfold set_own; cbn; unfold add_sockets, del_sockets, disconnect_sockets; by rewrite apply_empty by done.
  Qed.
  Lemma c69_queries_l (h : list (fop P)) o opts rooms : Forall fop_ok h → orders_ok o → f_fetch o opts (f_run rep h) = [] ∧ f_all o rooms (f_run rep h) = ∅.
  Proof.
    intros Hok Ho. destruct (run_inv h Hok) as (I1 & _ & _). unfold f_fetch, f_all, fetch_sockets, sockets_in. by rewrite I1, !apply_empty by done.
  Qed.

  (** ** Collections *)
  Lemma answers_cons i op (h : list (fop P)) : answers i (op :: h) = answers i [op] ++ answers i h.
  Proof. unfold answers. by rewrite <- omap_app. Qed.
  Lemma step_asks (s : st) op : fop_ok op → (∀ i r, op ≠ FAnswer i r) →
    ∃ new, fa_asks (f_step rep s op) = fa_asks s ++ new ∧ (∀ a, a ∈ new → a.1 = fa_count s) ∧ fa_count s ≤ fa_count (f_step rep s op) ∧ (new ≠ [] → fa_count (f_step rep s op) = S (fa_count s)).
  Proof.
    intros Ho Hne. assert (∀ x : st, fa_asks x = fa_asks s → fa_count x = fa_count s → ∃ new, fa_asks x = fa_asks s ++ new ∧ (∀ a, a ∈ new → a.1 = fa_count s) ∧ fa_count s ≤ fa_count x ∧ (new ≠ [] → fa_count x = S (fa_count s))) as Hsame.
    { intros x E1 E2. exists []. rewrite app_nil_r, E2. split_and!; [done| |lia|done]. intros a Ha. by apply elem_of_nil in Ha. }
    destruct op as [n|n|n op|p ks os|p ks os opts|p ks os|p o opts|o opts rs|o opts rs|o opts|i r]; cbn [f_step fop_ok] in *; try (by apply Hsame).
    - apply Hsame; by destruct (fa_kids s !! n).
    - destruct Ho as [Hk Ho]. unfold each. destruct (each_emit p os all_children_opts (ks (dom (fa_kids s))) s (keys_NoDup _ _ Hk)) as (_ & H2 & H3 & _). by apply Hsame.
    - destruct Ho as [Hk Ho]. unfold each. destruct (each_emit p os opts (ks (dom (fa_kids s))) s (keys_NoDup _ _ Hk)) as (_ & H2 & H3 & _). by apply Hsame.
    - destruct Ho as [Hk Ho]. unfold each. destruct (each_ask (fa_count s) p os (ks (dom (fa_kids s))) s (keys_NoDup _ _ Hk)) as (_ & H2 & H3 & _). cbn [counted fa_asks fa_count]. rewrite H2, H3.
      eexists. split; [done|]. split_and!; [|lia|done]. intros a (n & Hn & E)%elem_of_list_omap. apply fmap_Some in E as (ns & _ & ->). done.
    - cbn. eexists. split; [done|]. split_and!; [|lia|done]. intros a ->%elem_of_list_singleton. done.
    - by destruct (Hne i r).
  Qed.
  Lemma run_asks (h : list (fop P)) (s : st) : Forall fop_ok h → let s' := foldl (f_step rep) s h in
    (∀ i a, fa_asks s !! i = Some a → fa_asks s' !! i = Some (a.1, foldl (bserial1 1 false) a.2 (answers i h))) ∧
    (∀ i a, fa_asks s !! i = None → fa_asks s' !! i = Some a → fa_count s ≤ a.1).
  Proof.
    revert s. induction h as [|op h IH]; intros s Hok; cbn [foldl].
    { split; [|by intros i a ->]. intros i [j b] H. by rewrite H. }
    apply Forall_cons in Hok as [Ho Hok]. destruct (IH (f_step rep s op) Hok) as [H1 H2]. setoid_rewrite (answers_cons _ op).
    assert ((∃ i r, op = FAnswer i r) ∨ ∀ i r, op ≠ FAnswer i r) as [(k & r & ->)|Hne] by (destruct op; eauto; right; done).
    - split.
      + intros i a Ha. destruct (decide (k = i)) as [->|Hki].
        * rewrite (H1 i (a.1, bserial1 1 false a.2 (answer r))).
          -- unfold answers at 2. cbn [omap list_omap]. rewrite decide_True by done. done.
          -- cbn [f_step fa_asks]. by rewrite list_lookup_alter, Ha.
        * rewrite (H1 i a).
          -- unfold answers at 2. cbn [omap list_omap]. rewrite decide_False by done. done.
          -- cbn [f_step fa_asks]. by rewrite list_lookup_alter_ne by done.
      + intros i a Hn Ha. apply (H2 i a); [|done]. cbn. destruct (decide (k = i)) as [->|]; [by rewrite list_lookup_alter, Hn|by rewrite list_lookup_alter_ne].
    - destruct (step_asks s op Ho Hne) as (new & E1 & E2 & E3 & _). assert (∀ i, answers i [op] = []) as Ha by (intros i; destruct op; try done; by destruct (Hne i0 r)). split.
      + intros i a Hi. rewrite Ha. apply H1. rewrite E1. by apply lookup_app_l_Some.
      + intros i a Hn Hi. destruct (fa_asks (f_step rep s op) !! i) as [b|] eqn:Eb.
        * rewrite (H1 _ _ Eb) in Hi. simplify_eq. cbn. rewrite E1, lookup_app, Hn in Eb. apply elem_of_list_lookup_2 in Eb. by rewrite (E2 _ Eb).
        * etrans; [exact E3|]. by eapply H2.
  Qed.
  Lemma old_asks (h : list (fop P)) : Forall fop_ok h → ∀ i a, fa_asks (f_run rep h) !! i = Some a → a.1 < asked h.
  Proof.
    induction h as [|op h IH] using rev_ind; intros Hok i a; [done|]. apply Forall_app in Hok as [Hok Ho]. pose proof (proj1 (Forall_singleton _ _) Ho) as Ho1. clear Ho. rename Ho1 into Ho.
    destruct (run_inv h Hok) as (_ & I2 & _). destruct (run_inv (h ++ [op])) as (_ & I2' & _); [apply Forall_app; split; [done|]; by constructor|].
    rewrite f_run_snoc in I2' |- *. assert ((∃ i r, op = FAnswer i r) ∨ ∀ i r, op ≠ FAnswer i r) as [(k & r & ->)|Hne] by (destruct op; eauto; right; done).
    - rewrite asked_app. change (asked [FAnswer k r : fop P]) with 0. rewrite Nat.add_0_r. cbn. destruct (decide (k = i)) as [->|]; [rewrite list_lookup_alter|rewrite list_lookup_alter_ne by done].
      + intros (b & Hb & ->)%fmap_Some. cbn. by eapply IH.
      + by apply IH.
    - destruct (step_asks (f_run rep h) op Ho Hne) as (new & E1 & E2 & E3 & E4). rewrite E1. intros Hi. apply lookup_app_Some in Hi as [Hi|[_ Hi]].
      + rewrite <- I2'. eapply Nat.lt_le_trans; [by eapply IH|]. by rewrite <- I2.
      + apply elem_of_list_lookup_2 in Hi. rewrite (E2 _ Hi), <- I2', E4; [lia|]. intros ->. by apply elem_of_nil in Hi.
  Qed.
  Lemma asks_length j p os (s : st) l : (∀ n, n ∈ l → is_Some (fa_kids s !! n)) →
    ∀ i a, asks_of j p os s l !! i = Some a ↔ ∃ n ns, l !! i = Some n ∧ fa_kids s !! n = Some ns ∧ a = (ask j p (os n) all_children_opts ns).2.
  Proof.
    intros Hl. induction l as [|n l IH]; intros i a.
    - split; [done|]. by intros (n & ns & E & _).
    - unfold asks_of. cbn [omap list_omap]. destruct (Hl n) as [ns Hns]; [by left|]. rewrite Hns. cbn [fmap option_fmap option_map]. destruct i as [|i]; cbn [lookup list_lookup].
      + split; [intros [= <-]; by exists n, ns|]. intros (n' & ns' & [= <-] & E & ->). simplify_eq. done.
      + apply IH. intros m Hm. apply Hl. by right.
  Qed.
  Lemma c69_ack_l (h1 h2 : list (fop P)) p ks os : Forall fop_ok (h1 ++ FEmitAck p ks os :: h2) → let s := f_run rep (h1 ++ FEmitAck p ks os :: h2) in
    ∃ l : list (nat * nat), NoDup l.*1 ∧ NoDup l.*2 ∧ (∀ n, n ∈ l.*1 ↔ is_Some (kid n h1)) ∧
      ∀ i b, fa_asks s !! i = Some (asked h1, b) ↔ ∃ n c, (n, i) ∈ l ∧ clients n h1 c ∧ b = bserial 1 false (EbCount c :: EbFinish :: answers i h2).
  Proof.
    intros Hok s. apply Forall_app in Hok as [Hok1 Hok]. apply Forall_cons in Hok as [[Hk Ho] Hok2]. destruct (run_inv h1 Hok1) as (_ & I2 & I3).
    set (s1 := f_run rep h1) in *. set (K := ks (dom (fa_kids s1))). set (B := length (fa_asks s1)).
    assert (∀ n, n ∈ K ↔ is_Some (kid n h1)) as HK. { intros n. unfold K. rewrite keys_elem, elem_of_dom, I3 by done. by rewrite fmap_is_Some. }
    assert (NoDup K) as HKn by (by apply keys_NoDup).
    exists (zip K (seq B (length K))). rewrite fst_zip, snd_zip by (rewrite seq_length; lia). split_and!; [done|apply NoDup_seq|done|].
    assert (s = foldl (f_step rep) (f_step rep s1 (FEmitAck p ks os)) h2) as Es by (unfold s, f_run; by rewrite foldl_app).
    destruct (each_ask (fa_count s1) p os K s1 HKn) as (_ & F2 & F3 & _). set (s2 := f_step rep s1 (FEmitAck p ks os)) in *.
    assert (fa_asks s2 = fa_asks s1 ++ asks_of (asked h1) p os s1 K) as A2 by (rewrite <- I2; exact F3). assert (fa_count s2 = S (asked h1)) as C2 by (rewrite <- I2, <- F2; done).
    destruct (run_asks h2 s2 Hok2) as [R1 R2]. cbv zeta in R1, R2. rewrite <- Es in R1, R2.
    assert (∀ n, n ∈ K → is_Some (fa_kids s1 !! n)) as HKs. { intros n Hn. rewrite I3, fmap_is_Some. by apply HK. }
    pose proof (asks_length (asked h1) p os s1 K HKs) as HA.
    assert (∀ n ns, fa_kids s1 !! n = Some ns → clients n h1 (length (apply_ns (sock_write p) (os n) all_children_opts ns).2) ∧ ∀ c, clients n h1 c → c = length (apply_ns (sock_write p) (os n) all_children_opts ns).2) as Hcl.
    { intros n ns E. rewrite I3 in E. apply fmap_Some in E as (hn & Ehn & ->). destruct (ns_histories rep hn) as (V & _ & _); [exact (kid_ok h1 n hn Hok1 Ehn)|].
      destruct (apply_wf (λ _, True) (sock_write p) (os n) all_children_opts (ns_run rep hn) (Ho n)) as (N1 & _ & N2 & _); [apply ns_run_wf; exact (kid_ok h1 n hn Hok1 Ehn)|done|intros ? ? ? _ _; split; [split; done|done]|].
      assert (∀ id, id ∈ (apply_ns (sock_write p) (os n) all_children_opts (ns_run rep hn)).2 ↔ v_listed (view_of hn) id) as N3.
      { intros id. rewrite N2, <- V. unfold matches. cbn. split; [by intros [? _]|]. intros Hl. split_and!; [done|by left|]. intros (r & Hr & _). set_solver. }
      split; [by exists hn, (apply_ns (sock_write p) (os n) all_children_opts (ns_run rep hn)).2|]. intros c (hn' & L & E & L1 & L2 & <-). rewrite Ehn in E. injection E as <-.
      apply Permutation_length, NoDup_Permutation; [done..|]. intros id. by rewrite L2, N3. }
    intros i b. split.
    - intros Hi. destruct (fa_asks s2 !! i) as [a|] eqn:Ea.
      + rewrite (R1 _ _ Ea) in Hi. injection Hi as E1 E2. rewrite A2 in Ea. apply lookup_app_Some in Ea as [Ea|[Hle Ea]].
        * pose proof (old_asks h1 Hok1 i a Ea). lia.
        * apply HA in Ea as (n & ns & En & Ens & ->). destruct (Hcl n ns Ens) as [Hc _]. eexists n, _. split; [|split; [exact Hc|]].
          -- apply elem_of_list_lookup. exists (i - B). apply lookup_zip_with_Some. exists n, i. split_and!; [done|done|]. apply lookup_seq. apply lookup_lt_Some in En. unfold B in *. lia.
          -- by rewrite <- E2, bserial_more.
      + pose proof (R2 _ _ Ea Hi) as H. rewrite C2 in H. cbn [fst] in H. lia.
    - intros (n & c & Hni & Hc & ->). apply elem_of_list_lookup in Hni as [x Hx]. apply lookup_zip_with_Some in Hx as (n' & i' & E & En & Ei). injection E as <- <-. apply lookup_seq in Ei as [-> Hx].
      destruct (HKs n) as [ns Ens]; [by eapply elem_of_list_lookup_2|]. rewrite (proj2 (Hcl n ns Ens) c Hc).
      rewrite (R1 _ (ask (asked h1) p (os n) all_children_opts ns).2); [by rewrite bserial_more|]. rewrite A2, lookup_app_r by (unfold B; lia). apply HA. exists n, ns. split_and!; [|done|done]. unfold B. by replace (length (fa_asks s1) + x - length (fa_asks s1)) with x by lia.
  Qed.
  Fixpoint idx (j : nat) (L : list (nat * bst)) : list nat :=
    match L with [] => [] | a :: L => (if decide (a.1 = j) then [0] else []) ++ (S <$> idx j L) end.
  Lemma idx_length j L : length (idx j L) = length (filter (λ a, a.1 = j) L).
  Proof. induction L as [|a L IH]; [done|]. cbn [idx]. rewrite filter_cons, app_length, fmap_length, IH. by case_decide. Qed.
  Lemma idx_elem j L i : i ∈ idx j L ↔ ∃ b, L !! i = Some (j, b).
  Proof.
    revert i. induction L as [|[k b] L IH]; intros i; cbn [idx].
    - rewrite elem_of_nil. split; [done|]. by intros [? ?].
    - rewrite elem_of_app, elem_of_list_fmap. destruct i as [|i]; cbn [lookup list_lookup fst].
      + split.
        * intros [H|(y & ? & _)]; [|done]. case_decide as E; [|by apply elem_of_nil in H]. subst. by exists b.
        * intros [b' [= -> ->]]. left. rewrite decide_True by done. by left.
      + change (list_lookup i L) with (L !! i). rewrite <- IH. split.
        * intros [H|(y & [= ->] & H)]; [|done]. case_decide; [by apply elem_of_list_singleton in H|by apply elem_of_nil in H].
        * intros H. right. by exists i.
  Qed.
  Lemma idx_NoDup j L : NoDup (idx j L).
  Proof.
    induction L as [|a L IH]; [constructor|]. cbn [idx]. apply NoDup_app. split_and!; [case_decide; [apply NoDup_singleton|constructor]| |by apply (NoDup_fmap_2 S)].
    intros x Hx (y & -> & _)%elem_of_list_fmap. case_decide; [by apply elem_of_list_singleton in Hx|by apply elem_of_nil in Hx].
  Qed.
  Lemma calls_length j (s : st) : (∀ i b, fa_asks s !! i = Some (j, b) → length (b_calls b) = 1) → length (f_calls j s) = length (idx j (fa_asks s)).
  Proof.
    intros H. rewrite idx_length. unfold f_calls. assert (∀ a, a ∈ filter (λ a, a.1 = j) (fa_asks s) → length (b_calls a.2) = 1) as H'.
    { intros [k b] [E Ha]%elem_of_list_filter. cbn in E. subst k. apply elem_of_list_lookup in Ha as [i Hi]. by eapply H. }
    clear H. induction (filter (λ a, a.1 = j) (fa_asks s)) as [|a L IH]; [done|]. cbn. rewrite app_length, (H' a) by (by left). cbn. f_equal. apply IH. intros b Hb. apply H'. by right.
  Qed.
  Lemma outcome_some sc past es : EbTimer ∈ es → is_Some (first_outcome sc past es).
  Proof.
    revert past. induction es as [|e es IH]; intros past; [by intros ?%elem_of_nil|]. intros [<-|H]%elem_of_cons; [by eexists|].
    cbn [first_outcome]. destruct e; try (by eexists); case_decide; try (by eexists); by apply IH.
  Qed.
  Lemma answers_fin i (h : list (fop P)) : n_finish (answers i h) = 0.
  Proof.
    unfold n_finish. induction h as [|op h IH]; [done|]. rewrite answers_cons, omap_app, app_length, IH. destruct op; try done. unfold answers. cbn. case_decide; [by destruct r|done].
  Qed.
  Lemma times_l c i (h : list (fop P)) : one_arg (answers i h) → EbTimer ∈ answers i h → length (b_calls (bserial 1 false (EbCount c :: EbFinish :: answers i h))) = 1.
  Proof.
    intros H1 H2. rewrite serial_outcome.
    - destruct (outcome_some 1 [] (EbCount c :: EbFinish :: answers i h)) as [x ->]; [by right; right|done].
    - intros a Ha. by apply H1.
    - change (S (n_finish (answers i h)) ≤ 1). rewrite answers_fin. lia.
  Qed.
  Lemma c69_ack_times_l (h1 h2 : list (fop P)) p ks os : Forall fop_ok (h1 ++ FEmitAck p ks os :: h2) → let s := f_run rep (h1 ++ FEmitAck p ks os :: h2) in
    (∀ i, one_arg (answers i h2)) → (∀ i b, fa_asks s !! i = Some (asked h1, b) → EbTimer ∈ answers i h2) →
    ∃ K, NoDup K ∧ (∀ n, n ∈ K ↔ is_Some (kid n h1)) ∧ length (f_calls (asked h1) s) = length K.
  Proof.
    intros Hok s Ha Ht. destruct (c69_ack_l h1 h2 p ks os Hok) as (l & L1 & L2 & L3 & L4). fold s in L4. exists l.*1. split_and!; [done|done|].
    rewrite calls_length.
    - rewrite fmap_length, <- (fmap_length snd). apply Permutation_length, NoDup_Permutation; [apply idx_NoDup|done|]. intros i. rewrite idx_elem, elem_of_list_fmap. split.
      + intros [b Hb]. apply L4 in Hb as (n & c & Hn & _). by exists (n, i).
      + intros ([n i'] & -> & Hn). cbn. assert (n ∈ l.*1) as Hk by (apply elem_of_list_fmap; by exists (n, i')).
        apply L3 in Hk as [hn Hk]. assert (∃ c, clients n h1 c) as [c Hc].
        { destruct (c69_received_l h1 n hn) as (ns & _ & V & _); [by apply Forall_app in Hok as [? _]|done|]. exists (length (elements (dom (ns_sockets ns)))), hn, (elements (dom (ns_sockets ns))).
          split_and!; [done|apply NoDup_elements| |done]. intros id. rewrite elem_of_elements, elem_of_dom. apply V. }
        eexists. apply L4. by exists n, c.
    - intros i b Hb. pose proof (Ht _ _ Hb) as Ht'. apply L4 in Hb as (n & c & _ & _ & ->). by apply times_l.
  Qed.
  Lemma c69_never_l (h1 h2 : list (fop P)) p ks os : Forall fop_ok (h1 ++ FEmitAck p ks os :: h2) → (∀ n, kid n h1 = None) → f_calls (asked h1) (f_run rep (h1 ++ FEmitAck p ks os :: h2)) = [].
  Proof.
    intros Hok Hn. destruct (c69_ack_l h1 h2 p ks os Hok) as (l & L1 & L2 & L3 & L4). set (s := f_run rep (h1 ++ FEmitAck p ks os :: h2)) in *. cbv zeta in L4.
    assert (∀ i b, fa_asks s !! i ≠ Some (asked h1, b)) as H.
    { intros i b Hb. apply L4 in Hb as (n & c & Hnl & _). destruct (proj1 (L3 n)) as [x Hx]; [apply elem_of_list_fmap; by exists (n, i)|]. by rewrite Hn in Hx. }
    apply nil_length_inv. rewrite calls_length; [|intros i b Hb; by destruct (H i b)]. destruct (idx (asked h1) (fa_asks s)) as [|i x] eqn:E; [done|]. exfalso.
    destruct (proj1 (idx_elem (asked h1) (fa_asks s) i)) as [b Hb]; [rewrite E; by left|]. by eapply H.
  Qed.
  Lemma c69_via_ack_l (h1 h2 : list (fop P)) p o opts : Forall fop_ok (h1 ++ FViaAck p o opts :: h2) →
    f_calls (asked h1) (f_run rep (h1 ++ [FViaAck p o opts])) = [BOk []] ∧
    ∃ i, ∀ k b, fa_asks (f_run rep (h1 ++ FViaAck p o opts :: h2)) !! k = Some (asked h1, b) ↔ k = i ∧ b = bserial 1 false (EbCount 0 :: EbFinish :: answers i h2).
  Proof.
    intros Hok. apply Forall_app in Hok as [Hok1 Hok]. apply Forall_cons in Hok as [Ho Hok2]. destruct (run_inv h1 Hok1) as (I1 & I2 & _).
    set (s1 := f_run rep h1) in *. set (s2 := f_step rep s1 (FViaAck p o opts)). assert (fa_asks s2 = fa_asks s1 ++ [(asked h1, bserial 1 false [EbCount 0; EbFinish])]) as A2.
    { unfold s2. cbn [f_step counted fa_asks ask fst snd]. rewrite I1, apply_empty by done. by rewrite I2. }
    assert (fa_count s2 = S (asked h1)) as C2 by (rewrite <- I2; done). split.
    - rewrite f_run_snoc. fold s1. fold s2. unfold f_calls. rewrite A2, filter_app. replace (filter (λ a : nat * bst, a.1 = asked h1) (fa_asks s1)) with ([] : list (nat * bst)).
      + rewrite filter_cons, decide_True by done. vm_compute. reflexivity.
      + symmetry. assert (∀ a, a ∉ filter (λ a : nat * bst, a.1 = asked h1) (fa_asks s1)) as H; [|by destruct (filter _ _) as [|a x]; [|destruct (H a); left]].
        intros a [E [i Hi]%elem_of_list_lookup]%elem_of_list_filter. pose proof (old_asks h1 Hok1 i a Hi). lia.
    - exists (length (fa_asks s1)). assert (f_run rep (h1 ++ FViaAck p o opts :: h2) = foldl (f_step rep) s2 h2) as -> by (unfold f_run; by rewrite foldl_app).
      destruct (run_asks h2 s2 Hok2) as [R1 R2]. cbv zeta in R1, R2. intros k b. split.
      + intros Hk. destruct (fa_asks s2 !! k) as [a|] eqn:Ea.
        * rewrite (R1 _ _ Ea) in Hk. injection Hk as E1 E2. rewrite A2 in Ea. apply lookup_app_Some in Ea as [Ea|[Hle Ea]].
          -- pose proof (old_asks h1 Hok1 k a Ea). lia.
          -- apply list_lookup_singleton_Some in Ea as [Ek <-]. assert (k = length (fa_asks s1)) as Ek' by lia. split; [done|]. cbn [snd] in E2. rewrite bserial_more, <- E2, Ek'. reflexivity.
        * pose proof (R2 _ _ Ea Hk) as H. rewrite C2 in H. cbn [fst] in H. lia.
      + intros [-> ->]. rewrite (R1 _ (asked h1, bserial 1 false [EbCount 0; EbFinish])); [rewrite (bserial_more 0 (answers (length (fa_asks s1)) h2)); reflexivity|]. rewrite A2, lookup_app_r by lia. by rewrite Nat.sub_diag.
  Qed.
End family.
