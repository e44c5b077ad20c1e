(** Proofs about the arguments of emissions. *)
From Verif Require Import Base GoTypes Args ArgsSpec.

Lemma arun_snoc g h op : arun g (h ++ [op]) = astep g (arun g h) op.
Proof. unfold arun. by rewrite foldl_app. Qed.
Lemma owned_snoc h op : owned (h ++ [op]) = own_step (owned h) op.
Proof. unfold owned. by rewrite foldl_app. Qed.
Lemma functions_snoc h op : functions (h ++ [op]) = functions h ++ match op with AWithAck ev s => [(ev, s)] | _ => [] end.
Proof. unfold functions. rewrite omap_app. by destruct op. Qed.

(** ** Slices of the library
    [fresh m0 m s]: compared to [m0], only new arrays of the library were written, and [s] is one of them, in range. *)
Definition grown (m0 m : memory) : Prop := mm_caller m = mm_caller m0 ∧ mm_lib m0 `prefix_of` mm_lib m.
Definition fresh (m0 m : memory) (s : slice) : Prop :=
  grown m0 m ∧ sl_len s ≤ sl_cap s ∧ ∃ n a, sl_ref s = Lib n ∧ length (mm_lib m0) ≤ n ∧ mm_lib m !! n = Some a ∧ sl_off s + sl_cap s ≤ length a.
Lemma grown_trans m0 m1 m2 : grown m0 m1 → grown m1 m2 → grown m0 m2.
Proof. intros [H1 H2] [H3 H4]. split; [congruence|by etrans]. Qed.
Lemma grown_set m0 m n a : grown m0 m → length (mm_lib m0) ≤ n → grown m0 (set_array (Lib n) a m).
Proof.
  intros [H1 (l & E)] Hn. split; [done|]. cbn. rewrite E, insert_app_r_alt by done. by apply prefix_app_r.
Qed.
Lemma fresh_write m0 m s n a a' : fresh m0 m s → sl_ref s = Lib n → mm_lib m !! n = Some a → length a' = length a → fresh m0 (set_array (Lib n) a' m) s.
Proof.
  intros (Hg & Hl & n' & b & Er & Hn & Hb & Hc) Er' Ha El. assert (n' = n) as -> by congruence. assert (b = a) as -> by congruence. split; [by apply grown_set|]. split; [done|].
  exists n, a'. split; [done|]. split; [done|]. split; [cbn; apply list_lookup_insert; by eapply lookup_lt_Some|lia].
Qed.
Lemma array_lib m n a : mm_lib m !! n = Some a → array m (Lib n) = a.
Proof. intros H. unfold array. by rewrite H. Qed.
Lemma append_fresh g m0 m s vs : fresh m0 m s → let r := go_append g s vs m in fresh m0 r.1 r.2 ∧ contents r.1 r.2 = contents m s ++ vs.
Proof.
  intros Hf. pose proof Hf as (Hg & Hl & n & a & Er & Hn & Ha & Hc). cbv zeta. unfold go_append. destruct (decide _) as [Hd|Hd]; cbn [fst snd].
  - rewrite Er, (array_lib _ _ _ Ha). set (i := sl_off s + sl_len s). set (a' := take i a ++ vs ++ drop (i + length vs) a).
    assert (length a' = length a) as El. { unfold a'. rewrite !app_length, take_length, drop_length. lia. } split.
    + destruct (fresh_write m0 m s n a a' Hf Er Ha El) as (H1 & H2 & n' & b & H3 & H4 & H5 & H6). split; [done|]. split; [cbn; lia|]. exists n, b. assert (n' = n) as -> by congruence. done.
    + unfold contents. cbn [sl_ref sl_off sl_len]. rewrite Er, (array_lib m n a Ha).
      rewrite (array_lib _ n a') by (cbn; apply list_lookup_insert; by eapply lookup_lt_Some). unfold a', i.
      rewrite drop_app_le by (rewrite take_length; lia). rewrite skipn_firstn_comm. replace (sl_off s + sl_len s - sl_off s) with (sl_len s) by lia.
      assert (length (take (sl_len s) (drop (sl_off s) a)) = sl_len s) as Elen by (rewrite take_length, drop_length; lia).
      rewrite <- Elen at 1. rewrite firstn_app_2. f_equal. by rewrite take_app.
  - split.
    + split; [split; [apply Hg|]; cbn; destruct Hg as [_ (l & E)]; rewrite E, <- app_assoc; by apply prefix_app_r|]. cbn. split; [lia|].
      eexists (length (mm_lib m)), _. split; [done|]. split; [destruct Hg as [_ Hp]; by apply prefix_length|]. split; [by rewrite lookup_app_r, Nat.sub_diag|].
      rewrite !app_length, replicate_length. lia.
    + unfold contents at 1. cbn. rewrite lookup_app_r, Nat.sub_diag by done. cbn. rewrite drop_0. by rewrite take_app.
Qed.

Lemma contents_len m0 m s : fresh m0 m s → length (contents m s) = sl_len s.
Proof.
  intros (_ & Hl & n & a & Er & _ & Ha & Hc). unfold contents. rewrite Er, (array_lib _ _ _ Ha), take_length, drop_length. lia.
Qed.
Lemma make_fresh g ev args m : let r := make_data g ev args m in fresh m r.1 r.2 ∧ contents r.1 r.2 = VStr ev :: contents m args.
Proof.
  unfold make_data. set (m1 := Memory _ _). set (s1 := Slice _ _ _ _). assert (mm_lib m1 !! length (mm_lib m) = Some [VStr ev]) as E1. { cbn. by rewrite lookup_app_r, Nat.sub_diag. }
  assert (fresh m m1 s1) as Hf.
  { split; [split; [done|]; cbn; by apply prefix_app_r|]. split; [cbn; lia|]. exists (length (mm_lib m)), [VStr ev]. cbn. split_and!; [done..|lia]. }
  destruct (append_fresh g m m1 s1 (contents m args) Hf) as [H1 H2]. split; [done|]. rewrite H2. unfold contents at 1. cbn [sl_ref sl_len sl_off s1]. by rewrite (array_lib _ _ _ E1).
Qed.
Lemma but_last_fresh m0 m s : fresh m0 m s → fresh m0 m (but_last s) ∧ contents m (but_last s) = take (length (contents m s) - 1) (contents m s).
Proof.
  intros Hf. pose proof (contents_len _ _ _ Hf) as El. split.
  - destruct Hf as (Hg & Hl & n & a & H1 & H2 & H3 & H4). split; [done|]. split; [cbn; lia|]. exists n, a. done.
  - rewrite El. unfold contents, but_last. cbn. rewrite take_take. f_equal. lia.
Qed.
Lemma poke_fresh m0 m s w : fresh m0 m s → fresh m0 (poke s m w) s.
Proof.
  intros Hf. unfold poke. destruct (decide _); [|done]. pose proof Hf as (_ & _ & n & a & Er & _ & Ha & _). rewrite Er, (array_lib _ _ _ Ha). eapply fresh_write; eauto. by rewrite insert_length.
Qed.
Lemma pokes_fresh m0 s ws : ∀ m, fresh m0 m s → fresh m0 (pokes s ws m) s.
Proof. induction ws as [|w ws IH]; intros m H; [done|]. cbn. apply IH. by apply poke_fresh. Qed.
Lemma ends_callback ev args : ends_in_ack (VStr ev :: args) = with_callback args.
Proof. unfold ends_in_ack, with_callback. by destruct args as [|v args]. Qed.
Lemma callback_nonempty args : with_callback args = true → ∃ k, length args = S k.
Proof. intros H. destruct args as [|v args]; [done|]. cbn. eauto. Qed.
Lemma set_array_length r a m : length (mm_lib (set_array r a m)) = length (mm_lib m).
Proof. destruct r; cbn; [done|]. by rewrite insert_length. Qed.
Lemma pokes_length d ws : ∀ m, length (mm_lib (pokes d ws m)) = length (mm_lib m).
Proof. induction ws as [|w ws IH]; intros m; [done|]. cbn. unfold pokes in IH. rewrite IH. unfold poke. destruct (decide _); [apply set_array_length|done]. Qed.
Lemma append_length g d vs m : length (mm_lib m) ≤ length (mm_lib (go_append g d vs m).1).
Proof. unfold go_append. destruct (decide _); cbn; [by rewrite set_array_length|]. rewrite app_length. lia. Qed.

(** ** One broadcast *)
Definition keeps (o : eopts) (ack : bool) : bool := eo_recovery o && negb ack && negb (eo_volatile o).
Lemma session_fresh g o ack d s m0 : fresh m0 (as_mem s) d → let r := session_broadcast g o ack d s in
  fresh m0 (as_mem r.2) r.1 ∧ as_funcs r.2 = as_funcs s ∧
  as_sent r.2 = as_sent s ++ [contents (as_mem s) d ++ (if keeps o ack then [VStr (eo_offset o)] else [])] ∧
  as_stored r.2 = as_stored s ++ (if keeps o ack then [r.1] else []) ∧
  (eo_writes o = [] → contents (as_mem r.2) r.1 = contents (as_mem s) d ++ (if keeps o ack then [VStr (eo_offset o)] else [])).
Proof.
  intros Hf. unfold session_broadcast. fold (keeps o ack). destruct (keeps o ack).
  - pose proof (append_fresh g m0 (as_mem s) d [VStr (eo_offset o)] Hf) as [H1 H2]. destruct (go_append g d _ _) as [m d']. cbn in *. rewrite H2.
    split; [by apply pokes_fresh|]. split; [done|]. split; [done|]. split; [done|]. intros ->. done.
  - cbn. rewrite !app_nil_r. split; [by apply pokes_fresh|]. split; [done|]. split; [done|]. split; [done|]. intros ->. done.
Qed.

Definition in_lib (m : memory) (d : slice) : Prop := ∃ n, sl_ref d = Lib n ∧ n < length (mm_lib m).
Lemma in_lib_grown m0 m d : grown m0 m → in_lib m0 d → in_lib m d.
Proof. intros [_ Hp] (n & E & H). exists n. split; [done|]. apply prefix_length in Hp. lia. Qed.
Lemma contents_grown m0 m d : grown m0 m → in_lib m0 d → contents m d = contents m0 d.
Proof. intros [_ (l & E)] (n & En & H). unfold contents, array. rewrite En, E. by rewrite lookup_app_l. Qed.
Lemma fresh_in_lib m0 m d : fresh m0 m d → in_lib m d.
Proof. intros (_ & _ & n & a & Er & _ & Ha & _). exists n. split; [done|]. by eapply lookup_lt_Some. Qed.

(** A slice that later appends to [d] leave alone. *)
Definition below (m : memory) (d t : slice) : Prop := in_lib m t ∧ (sl_ref t = sl_ref d → sl_off t + sl_len t ≤ sl_off d + sl_len d).
Lemma take_drop_keep {A} (a x : list A) i j k : j + k ≤ i → i ≤ length a → take k (drop j (take i a ++ x)) = take k (drop j a).
Proof.
  intros H1 H2. rewrite drop_app_le by (rewrite take_length; lia). rewrite take_app_le by (rewrite drop_length, take_length; lia).
  rewrite skipn_firstn_comm, take_take. f_equal. lia.
Qed.
Lemma append_below g m0 m d vs t : fresh m0 m d → below m d t → let r := go_append g d vs m in below r.1 r.2 t ∧ contents r.1 t = contents m t.
Proof.
  intros Hf [Ht Hb]. pose proof Hf as (Hg & Hl & n & a & Er & Hn & Ha & Hc). pose proof Ht as (k & Ek & Hk). cbv zeta. unfold go_append. destruct (decide _) as [Hd|Hd]; cbn [fst snd].
  - rewrite Er, (array_lib _ _ _ Ha). split.
    + split; [exists k; split; [done|]; cbn; by rewrite insert_length|]. cbn. intros E. rewrite Er in Hb. specialize (Hb E). lia.
    + unfold contents, array. rewrite Ek. cbn. destruct (decide (k = n)) as [->|Hne].
      * rewrite list_lookup_insert by done. rewrite Ha. cbn. apply take_drop_keep; [|lia]. apply Hb. congruence.
      * by rewrite list_lookup_insert_ne.
  - split.
    + split; [exists k; split; [done|]; cbn; rewrite app_length; lia|]. cbn. rewrite Ek. intros [= ->]. lia.
    + unfold contents, array. rewrite Ek. cbn. by rewrite lookup_app_l.
Qed.
Lemma session_below g o ack d s m0 t : eo_writes o = [] → fresh m0 (as_mem s) d → below (as_mem s) d t →
  let r := session_broadcast g o ack d s in below (as_mem r.2) r.1 t ∧ contents (as_mem r.2) t = contents (as_mem s) t.
Proof.
  intros Ew Hf Hb. unfold session_broadcast. fold (keeps o ack). rewrite Ew. destruct (keeps o ack); [|done].
  pose proof (append_below g m0 (as_mem s) d [VStr (eo_offset o)] t Hf Hb) as H. by destruct (go_append g d _ _) as [m d'].
Qed.
Lemma below_self m0 m d : fresh m0 m d → below m d d.
Proof. intros H. split; [by eapply fresh_in_lib|lia]. Qed.

(** ** One emission *)
Lemma emit_spec g o ev args s : let s' := emit g o ev args s in let v := contents (as_mem s) args in
  grown (as_mem s) (as_mem s') ∧ as_funcs s' = as_funcs s ∧
  ((eo_direct o = true → eo_recovery o = false → eo_writes o = []) → as_sent s' = as_sent s ++ [payload o ev v]) ∧
  ∃ ds, as_stored s' = as_stored s ++ ds ∧ Forall (in_lib (as_mem s')) ds ∧
    (eo_writes o = [] → contents (as_mem s') <$> ds = if stored_kind o v then [payload o ev v] else []).
Proof.
  unfold emit. pose proof (make_fresh g ev args (as_mem s)) as [Hf Hc]. destruct (make_data g ev args (as_mem s)) as [m d]. cbn [fst snd] in *. rewrite Hc, ends_callback.
  set (v := contents (as_mem s) args) in *. set (ack := with_callback v). set (d' := if ack then but_last d else d).
  assert (fresh (as_mem s) m d' ∧ contents m d' = VStr ev :: no_callback v) as [Hf' Hc'].
  { unfold d', no_callback. fold ack. destruct ack eqn:Ea; [|done]. destruct (but_last_fresh _ _ _ Hf) as [H1 H2]. split; [done|]. rewrite H2, Hc.
    destruct (callback_nonempty _ Ea) as (k & Ek). cbn [length]. rewrite Ek. cbn. by rewrite Nat.sub_0_r. }
  destruct (eo_direct o && negb (eo_recovery o)) eqn:Ed.
  - apply andb_true_iff in Ed as [E1 E2]. apply negb_true_iff in E2. assert (stored_kind o v = false) as Es by (unfold stored_kind; by rewrite E2). cbn.
    pose proof (pokes_fresh _ _ (eo_writes o) _ Hf') as Hp. split; [apply Hp|]. split; [done|]. split.
    + intros Hq. rewrite (Hq E1 E2). cbn. unfold payload. rewrite Es, app_nil_r. by rewrite Hc'.
    + exists []. split; [by rewrite app_nil_r|]. split; [constructor|]. rewrite Es. done.
  - pose proof (session_fresh g o ack d' (set_mem m s) (as_mem s) Hf') as (H1 & H2 & H3 & H4 & H5). cbn in H2, H3, H4, H5. rewrite Hc' in H3, H5.
    assert (keeps o ack = stored_kind o v) as Ek by done. rewrite Ek in *. split; [apply H1|]. split; [done|]. split; [intros _; exact H3|].
    exists (if stored_kind o v then [(session_broadcast g o ack d' (set_mem m s)).1] else []). split; [done|]. split.
    + destruct (stored_kind o v); [|constructor]. constructor; [|constructor]. by eapply fresh_in_lib.
    + intros Ew. unfold payload. specialize (H5 Ew). destruct (stored_kind o v); [|done]. cbn [fmap list_fmap]. by rewrite H5.
Qed.
Lemma children_keeps g os : ∀ d s m0 t, Forall (λ o, eo_writes o = []) os → fresh m0 (as_mem s) d → below (as_mem s) d t → contents (as_mem (children g os false d s)) t = contents (as_mem s) t.
Proof.
  induction os as [|o os IH]; intros d s m0 t Hq Hf Hb; [done|]. apply Forall_cons in Hq as [Ho Hq]. cbn [children].
  pose proof (session_below g o false d s m0 t Ho Hf Hb) as [H1 H2]. pose proof (session_fresh g o false d s m0 Hf) as [H3 _]. destruct (session_broadcast g o false d s) as [d' s']. cbn in *.
  rewrite <- H2. by eapply IH.
Qed.
Lemma children_spec g os : ∀ d s m0, fresh m0 (as_mem s) d → let s' := children g os false d s in
  grown m0 (as_mem s') ∧ grown m0 (as_mem s) ∧ as_funcs s' = as_funcs s ∧
  (Forall (λ o, eo_writes o = []) os → as_sent s' = as_sent s ++ payloads (contents (as_mem s) d) os) ∧
  (∀ t, in_lib (as_mem s) t → in_lib (as_mem s') t) ∧
  ∃ ds, as_stored s' = as_stored s ++ ds ∧ Forall (in_lib (as_mem s')) ds ∧
    (Forall (λ o, eo_writes o = []) os → contents (as_mem s') <$> ds =
       omap (λ x, if eo_recovery x.1 && negb (eo_volatile x.1) then Some x.2 else None) (zip os (payloads (contents (as_mem s) d) os))).
Proof.
  induction os as [|o os IH]; intros d s m0 Hf; cbv zeta.
  - split; [apply Hf|]. split; [apply Hf|]. split; [done|]. split; [intros _; by rewrite app_nil_r|]. split; [done|]. exists []. split; [by rewrite app_nil_r|]. split; [constructor|done].
  - cbn [children payloads]. pose proof (session_fresh g o false d s m0 Hf) as (H1 & H2 & H3 & H4 & H5).
    assert (∀ t, in_lib (as_mem s) t → in_lib (as_mem (session_broadcast g o false d s).2) t) as Hin.
    { intros t (n & E & Hn). exists n. split; [done|]. unfold session_broadcast. fold (keeps o false). destruct (keeps o false); [|cbn; by rewrite pokes_length].
      pose proof (append_length g d [VStr (eo_offset o)] (as_mem s)). destruct (go_append g d _ _) as [m dd]. cbn in *. rewrite pokes_length. lia. }
    destruct (session_broadcast g o false d s) as [d' s1]. cbn in H1, H2, H3, H4, H5, Hin.
    destruct (IH d' s1 m0 H1) as (I1 & I2 & I3 & I4 & I5 & ds & I6 & I7 & I8).
    assert (keeps o false = eo_recovery o && negb (eo_volatile o)) as Ek by (unfold keeps; by rewrite andb_true_r). rewrite Ek in *.
    split; [done|]. split; [apply Hf|]. split; [congruence|]. split.
    { intros Hq. apply Forall_cons in Hq as [Ho Hq]. rewrite (I4 Hq), H3, <- app_assoc. cbn. by rewrite (H5 Ho). } split; [auto|].
    exists ((if eo_recovery o && negb (eo_volatile o) then [d'] else []) ++ ds). split; [by rewrite I6, H4, app_assoc|]. split.
    { apply Forall_app. split; [|done]. destruct (_ && _); constructor; [|constructor]. apply I5. by eapply fresh_in_lib. }
    intros Hq. apply Forall_cons in Hq as [Ho Hq]. rewrite fmap_app, (I8 Hq), (H5 Ho). cbn. destruct (_ && _); [|done]. cbn. f_equal.
    rewrite (children_keeps g os d' s1 m0 d' Hq H1 (below_self _ _ _ H1)). by apply H5.
Qed.

(** ** One operation *)
Lemma contents_caller m s n : sl_ref s = Caller n → contents m s = passes (mm_caller m) s.
Proof. intros E. unfold contents, passes, array. by rewrite E. Qed.
(** The callback is appended to a copy when there is no spare room, else in the caller's array. *)
Lemma call_append g s a m n : sl_ref s = Caller n → let r := go_append g s [VAck a] m in
  mm_lib m `prefix_of` mm_lib r.1 ∧ (full s → mm_caller r.1 = mm_caller m ∧ contents r.1 r.2 = contents m s ++ [VAck a]).
Proof.
  intros Er. unfold go_append. destruct (decide _) as [Hd|Hd]; cbn [fst snd length] in *.
  - split; [rewrite Er; done|]. unfold full. intros. lia.
  - split; [cbn; by apply prefix_app_r|]. intros _. split; [done|]. unfold contents at 1. cbn. rewrite lookup_app_r, Nat.sub_diag by done. cbn. by rewrite drop_0, take_app.
Qed.
Lemma step_spec g l s op (Hop : op_ok l op) (Hfs : Forall (λ x, ∃ n, sl_ref x.2 = Caller n) (as_funcs s)) :
  let s' := astep g s op in
  mm_lib (as_mem s) `prefix_of` mm_lib (as_mem s') ∧
  as_funcs s' = as_funcs s ++ match op with AWithAck ev a => [(ev, a)] | _ => [] end ∧
  (∃ ds, as_stored s' = as_stored s ++ ds ∧ Forall (in_lib (as_mem s')) ds ∧
     (Forall (λ x, full x.2) (as_funcs s) → still op → contents (as_mem s') <$> ds = stores (mm_caller (as_mem s)) (as_funcs s) op)) ∧
  (Forall (λ x, full x.2) (as_funcs s) →
     mm_caller (as_mem s') = own_step (mm_caller (as_mem s)) op ∧ (quiet op → as_sent s' = as_sent s ++ sends (mm_caller (as_mem s)) (as_funcs s) op)).
Proof.
  cbv zeta. destruct op as [vs|n i v|o ev a|ev a|k a o|os ev a]; cbn [astep].
  - split; [done|]. split; [by rewrite app_nil_r|]. split; [exists []; rewrite app_nil_r; done|]. intros _. split; [done|]. intros _. by rewrite app_nil_r.
  - split; [done|]. split; [by rewrite app_nil_r|]. split; [exists []; rewrite app_nil_r; done|]. intros _. split; [done|]. intros _. by rewrite app_nil_r.
  - destruct Hop as (_ & n & Er & _). pose proof (emit_spec g o ev a s) as (H1 & H2 & H3 & ds & H4 & H5 & H6). rewrite (contents_caller _ _ n Er) in H3, H6.
    split; [apply H1|]. split; [by rewrite app_nil_r|]. split; [exists ds; split; [done|]; split; [done|]; intros _; exact H6|]. intros _. split; [apply H1|exact H3].
  - split; [done|]. split; [done|]. split; [exists []; cbn; rewrite app_nil_r; done|]. intros _. split; [done|]. intros _. cbn. by rewrite app_nil_r.
  - destruct (as_funcs s !! k) as [[ev s0]|] eqn:Ek.
    + pose proof Hfs as Hfs2. rewrite Forall_lookup in Hfs2. destruct (Hfs2 _ _ Ek) as [n Er]. cbn in Er.
      pose proof (call_append g s0 a (as_mem s) n Er) as [G1 G2]. destruct (go_append g s0 [VAck a] (as_mem s)) as [m s1]. cbn [fst snd] in G1, G2.
      pose proof (emit_spec g o ev s1 (set_mem m s)) as ([H0 H1] & H2 & H3 & ds & H4 & H5 & H6). cbn in H0, H1, H2, H3, H4.
      split; [by etrans|]. split; [by rewrite app_nil_r|]. split.
      * exists ds. split; [done|]. split; [done|]. intros Hf Hs. rewrite Forall_lookup in Hf. destruct (G2 (Hf _ _ Ek)) as [G3 G4]. rewrite (H6 Hs). cbn [as_mem set_mem]. rewrite G4.
        unfold stored_kind, with_callback. rewrite last_snoc. by rewrite andb_false_r.
      * intros Hf. rewrite Forall_lookup in Hf. destruct (G2 (Hf _ _ Ek)) as [G3 G4]. split; [cbn; congruence|]. intros Hq. rewrite (H3 Hq). cbn. rewrite Ek, G4. by rewrite (contents_caller _ _ n Er).
    + split; [done|]. split; [by rewrite app_nil_r|]. split; [exists []; rewrite app_nil_r; done|]. intros _. split; [done|]. intros _. cbn. rewrite Ek. by rewrite app_nil_r.
  - destruct Hop as (_ & n & Er & _). unfold parent_emit. pose proof (make_fresh g ev a (as_mem s)) as [Hf Hc]. destruct (make_data g ev a (as_mem s)) as [m d]. cbn [fst snd] in *.
    rewrite (contents_caller _ _ n Er) in Hc.
    pose proof (children_spec g os d (set_mem m s) (as_mem s) Hf) as (H1 & _ & H2 & H3 & _ & ds & H4 & H5 & H6). cbn [as_mem set_mem as_funcs as_sent as_stored] in *. rewrite Hc in H3, H6.
    split; [apply H1|]. split; [by rewrite app_nil_r|]. split; [exists ds; split; [done|]; split; [done|]; intros _; exact H6|]. intros _. split; [apply H1|exact H3].
Qed.

(** ** Histories *)
Lemma over_history_snoc f op h : ∀ past, over_history f past (h ++ [op]) = over_history f past h ++ f (owned (past ++ h)) (functions (past ++ h)) op.
Proof.
  induction h as [|o h IH]; intros past; cbn; [by rewrite !app_nil_r|]. rewrite IH, <- !app_assoc. done.
Qed.
Lemma ops_ok_snoc h op : ops_ok (h ++ [op]) → ops_ok h ∧ op_ok (owned h) op.
Proof.
  intros H. split; [|by apply (H h op [])]. intros h1 o h2 ->. apply (H h1 o (h2 ++ [op])). by rewrite <- app_assoc.
Qed.
Lemma funcs_caller h : ops_ok h → Forall (λ x : string * slice, ∃ n, sl_ref x.2 = Caller n) (functions h).
Proof.
  induction h as [|op h IH] using rev_ind; intros Hok; [constructor|]. apply ops_ok_snoc in Hok as [Hok Ho]. rewrite functions_snoc. apply Forall_app. split; [auto|].
  destruct op; try constructor; [|constructor]. destruct Ho as (_ & n & E & _). by exists n.
Qed.
Lemma funcs_full h : all_full h → Forall (λ x : string * slice, full x.2) (functions h).
Proof.
  intros H. apply Forall_forall. intros [ev s] Hin. apply elem_of_list_omap in Hin as (op & Hop & E). destruct op; try done. injection E as -> ->. by apply (H ev).
Qed.
Lemma all_full_snoc h op : all_full (h ++ [op]) → all_full h.
Proof. intros H ev s Hin. apply (H ev). set_solver. Qed.
Lemma run_funcs g h : ops_ok h → as_funcs (arun g h) = functions h.
Proof.
  induction h as [|op h IH] using rev_ind; intros Hok; [done|]. apply ops_ok_snoc in Hok as [Hok Ho]. specialize (IH Hok). rewrite arun_snoc, functions_snoc, <- IH.
  refine (proj1 (proj2 (step_spec g _ _ _ Ho _))). rewrite IH. by apply funcs_caller.
Qed.
Lemma run_step g h op : ops_ok (h ++ [op]) → ∃ l, op_ok l op ∧ Forall (λ x : string * slice, ∃ n, sl_ref x.2 = Caller n) (as_funcs (arun g h)).
Proof.
  intros Hok. apply ops_ok_snoc in Hok as [Hok Ho]. exists (owned h). split; [done|]. rewrite run_funcs by done. by apply funcs_caller.
Qed.
Lemma run_full g h : ops_ok h → all_full h → Forall (λ x : string * slice, full x.2) (as_funcs (arun g h)).
Proof. intros Hok Hf. rewrite run_funcs by done. by apply funcs_full. Qed.
Lemma caller_owned g h : ops_ok h → all_full h → mm_caller (as_mem (arun g h)) = owned h.
Proof.
  induction h as [|op h IH] using rev_ind; intros Hok Hf; [done|]. destruct (run_step g h op Hok) as (l & Ho & Hfs). apply ops_ok_snoc in Hok as [Hok _]. apply all_full_snoc in Hf as Hf'.
  rewrite arun_snoc, owned_snoc, <- IH by done. pose proof (step_spec g l _ op Ho Hfs) as (_ & _ & _ & H). apply H. by apply run_full.
Qed.
Lemma sent_all g h : ops_ok h → all_full h → Forall quiet h → as_sent (arun g h) = over_history sends [] h.
Proof.
  induction h as [|op h IH] using rev_ind; intros Hok Hf Hq; [done|]. destruct (run_step g h op Hok) as (l & Ho & Hfs). apply ops_ok_snoc in Hok as [Hok _]. apply all_full_snoc in Hf as Hf'.
  apply Forall_app in Hq as [Hq Hq1]. apply Forall_cons in Hq1 as [Hq1 _]. rewrite arun_snoc, over_history_snoc. cbn [app].
  pose proof (step_spec g l _ op Ho Hfs) as (_ & _ & _ & H). destruct (H (run_full g h Hok Hf')) as [_ H1]. rewrite (H1 Hq1), IH, caller_owned, run_funcs by done. done.
Qed.
Lemma stored_in_lib g h : ops_ok h → Forall (in_lib (as_mem (arun g h))) (as_stored (arun g h)).
Proof.
  induction h as [|op h IH] using rev_ind; intros Hok; [constructor|]. destruct (run_step g h op Hok) as (l & Ho & Hfs). apply ops_ok_snoc in Hok as [Hok _]. specialize (IH Hok).
  rewrite arun_snoc. pose proof (step_spec g l _ op Ho Hfs) as (Hp & _ & (ds & E & Hd & _) & _). rewrite E. apply Forall_app. split; [|done]. eapply Forall_impl; [exact IH|].
  intros d (n & En & Hn). exists n. split; [done|]. apply prefix_length in Hp. lia.
Qed.
Lemma prefix_contents m0 m d : mm_lib m0 `prefix_of` mm_lib m → in_lib m0 d → contents m d = contents m0 d.
Proof. intros (l & E) (n & En & H). unfold contents, array. rewrite En, E. by rewrite lookup_app_l. Qed.
Lemma prefix_fmap m0 m ds : mm_lib m0 `prefix_of` mm_lib m → Forall (in_lib m0) ds → contents m <$> ds = contents m0 <$> ds.
Proof. intros Hp H. induction H as [|d ds Hd H IH]; [done|]. rewrite !fmap_cons, IH. f_equal. by apply prefix_contents. Qed.
(** What is in the store stays as it is. *)
Definition store_contents (s : astate) : list (list value) := contents (as_mem s) <$> as_stored s.
Lemma stored_prefix g h h' : ops_ok (h ++ h') → store_contents (arun g h) `prefix_of` store_contents (arun g (h ++ h')).
Proof.
  induction h' as [|op h' IH] using rev_ind; intros Hok; [by rewrite app_nil_r|]. rewrite app_assoc in *. destruct (run_step g (h ++ h') op Hok) as (l & Ho & Hfs). apply ops_ok_snoc in Hok as [Hok _].
  etrans; [by apply IH|]. rewrite arun_snoc. pose proof (step_spec g l _ op Ho Hfs) as (Hp & _ & (ds & E & Hd & _) & _). unfold store_contents. rewrite E, fmap_app.
  rewrite (prefix_fmap _ _ _ Hp (stored_in_lib g _ Hok)). by apply prefix_app_r.
Qed.
Lemma stored_all g h : ops_ok h → all_full h → Forall still h → store_contents (arun g h) = over_history stores [] h.
Proof.
  induction h as [|op h IH] using rev_ind; intros Hok Hf Hq; [done|]. destruct (run_step g h op Hok) as (l & Ho & Hfs). apply ops_ok_snoc in Hok as [Hok _]. apply all_full_snoc in Hf as Hf'.
  apply Forall_app in Hq as [Hq Hq1]. apply Forall_cons in Hq1 as [Hq1 _]. rewrite arun_snoc, over_history_snoc. cbn [app].
  pose proof (step_spec g l _ op Ho Hfs) as (Hp & _ & (ds & E & Hd & Hc) & _). unfold store_contents in *. rewrite E, fmap_app, (prefix_fmap _ _ _ Hp (stored_in_lib g _ Hok)), IH by done.
  f_equal. rewrite (Hc (run_full g h Hok Hf') Hq1), caller_owned, run_funcs by done. done.
Qed.
