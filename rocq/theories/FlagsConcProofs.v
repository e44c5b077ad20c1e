(** Proofs about modifiers under concurrency. *)
From Verif Require Import Base FlagsConc FlagsConcSpec.

(** ** Lists of actions *)
Lemma outs_snoc tr e : outs (tr ++ [e]) = outs tr + (if is_out e then 1 else 0).
Proof. unfold outs. rewrite filter_app, app_length. f_equal. cbn. destruct (is_out e) eqn:E; cbn; by rewrite ?decide_True, ?decide_False by congruence. Qed.
Lemma outs_app tr tr' : outs (tr ++ tr') = outs tr + outs tr'.
Proof. unfold outs. by rewrite filter_app, app_length. Qed.
Lemma outs_take tr i : outs (take i tr) ≤ outs tr.
Proof. rewrite <- (take_drop i tr) at 2. rewrite outs_app. lia. Qed.
Lemma take_snoc {A} (l : list A) x i : i ≤ length l → take i (l ++ [x]) = take i l.
Proof. intros. by rewrite take_app_le. Qed.
Lemma lookup_snoc_inv {A} (l : list A) x y i : (l ++ [x]) !! i = Some y → (i < length l ∧ l !! i = Some y) ∨ (i = length l ∧ y = x).
Proof.
  intros H. destruct (decide (i < length l)) as [Hi|Hi]; [left; by rewrite lookup_app_l in H|]. right. pose proof (lookup_lt_Some _ _ _ H) as Hl. rewrite app_length in Hl. cbn in Hl.
  assert (i = length l) as -> by lia. by rewrite lookup_app_r, Nat.sub_diag in H by lia; injection H.
Qed.
Lemma lookup_snoc_old {A} (l : list A) x y i : l !! i = Some y → (l ++ [x]) !! i = Some y.
Proof. apply lookup_app_l_Some. Qed.
Lemma loads_old tr e t k r : loads tr t k r → loads (tr ++ [e]) t k r.
Proof. intros (i & Hi & ->). exists i. pose proof (lookup_lt_Some _ _ _ Hi). rewrite take_snoc by lia. split; [by apply lookup_snoc_old|done]. Qed.
Lemma time_loads_old tr e t k r : time_loads tr t k r → time_loads (tr ++ [e]) t k r.
Proof. intros (i & Hi & ->). exists i. pose proof (lookup_lt_Some _ _ _ Hi). rewrite take_snoc by lia. split; [by apply lookup_snoc_old|done]. Qed.
Lemma loads_le tr t k r : loads tr t k r → r ≤ outs tr.
Proof. intros (i & Hi & ->). apply outs_take. Qed.
Lemma time_loads_le tr t k r : time_loads tr t k r → r ≤ outs tr.
Proof. intros (i & Hi & ->). apply outs_take. Qed.
Lemma loads_take tr t k r i : loads (take i tr) t k r → loads tr t k r.
Proof. intros (j & Hj & ->). pose proof (lookup_lt_Some _ _ _ Hj) as Hl. rewrite take_length in Hl. exists j. rewrite lookup_take in Hj by lia. split; [done|]. rewrite take_take. f_equal. f_equal. lia. Qed.

(** ** The invariant *)
Definition one_load (tr : list fevent) : Prop := ∀ t k i j, tr !! i = Some (t, k, ALoad) → tr !! j = Some (t, k, ALoad) → i = j.
Definition writers (tr : list fevent) : Prop := ∀ t k f v j, tr !! j = Some (t, k, AWrite f v) → ∃ r, loads (take j tr) t k r.
Definition timed (tr : list fevent) (t k : nat) (tm : option nat) : Prop := ∃ j r, tr !! j = Some (t, k, ATimeRead) ∧ time_loads (take j tr) t k r ∧ valued (take j tr) r FTimeout tm.
Definition copied (tr : list fevent) (t k r : nat) (f : field) (o : option nat) : Prop := ∃ j, tr !! j = Some (t, k, ARead f) ∧ loads (take j tr) t k r ∧ valued (take j tr) r f o.
Definition no_load (tr : list fevent) (t k : nat) : Prop := ∀ i, tr !! i ≠ Some (t, k, ALoad).
Definition copy_ok (tr : list fevent) (t k r : nat) (c : list (option nat)) : Prop := ∀ n f o, all_fields !! n = Some f → c !! n = Some o → copied tr t k r f o.
Definition out_ok (ps : list (list fcall)) (tr : list fevent) (t k : nat) (tm : option nat) (c : list (option nat)) : Prop :=
  ∃ call r, call_of ps t k = Some call ∧ (∀ f v, call ≠ FMod f v) ∧ (call = FEmit true → timed tr t k tm) ∧ (call ≠ FEmit true → tm = None) ∧ length c = 3 ∧ loads tr t k r ∧ copy_ok tr t k r c.
Definition pc_ok (tr : list fevent) (t k : nat) (call : option fcall) (pc : fpc) : Prop :=
  match pc with
  | PNext => True
  | PSet p => (∃ f v, call = Some (FMod f v)) ∧ loads tr t k p
  | PTime p => call = Some (FEmit true) ∧ time_loads tr t k p ∧ no_load tr t k
  | PLoad tm => call = Some (FEmit true) ∧ timed tr t k tm ∧ no_load tr t k
  | PCopy p tm c => ∃ cl, call = Some cl ∧ (∀ f v, cl ≠ FMod f v) ∧ (cl = FEmit true → timed tr t k tm) ∧ (cl ≠ FEmit true → tm = None) ∧ length c ≤ 3 ∧ loads tr t k p ∧ copy_ok tr t k p c
  end.
Record finv (ps : list (list fcall)) (s : fst_) (tr : list fevent) : Prop := {
  fi_ptr : fs_ptr s = outs tr;
  fi_heap : length (fs_heap s) = S (outs tr);
  fi_val : ∀ p o, fs_heap s !! p = Some o → ∀ f, valued tr p f (o f);
  fi_one : one_load tr;
  fi_wr : writers tr;
  fi_thr : ∀ t x, fs_thr s !! t = Some x → ps !! t = Some (ft_calls x) ∧ pc_ok tr t (ft_done x) (ft_calls x !! ft_done x) (ft_pc x);
  fi_early : ∀ i t k a, tr !! i = Some (t, k, a) → ∃ x, fs_thr s !! t = Some x ∧ k ≤ ft_done x ∧ (k = ft_done x → ft_pc x ≠ PNext);
  fi_out : ∀ i t k tm c, tr !! i = Some (t, k, AOut tm c) → out_ok ps (take i tr) t k tm c
}.

Lemma timed_old tr e t k tm : timed tr t k tm → timed (tr ++ [e]) t k tm.
Proof. intros (j & r & H1 & H2 & H3). pose proof (lookup_lt_Some _ _ _ H1). exists j, r. rewrite take_snoc by lia. split; [by apply lookup_snoc_old|done]. Qed.
Lemma copied_old tr e t k r f o : copied tr t k r f o → copied (tr ++ [e]) t k r f o.
Proof. intros (j & H1 & H2). pose proof (lookup_lt_Some _ _ _ H1). exists j. rewrite take_snoc by lia. split; [by apply lookup_snoc_old|done]. Qed.
Lemma copy_ok_old tr e t k r c : copy_ok tr t k r c → copy_ok (tr ++ [e]) t k r c.
Proof. intros H n f o H1 H2. apply copied_old. by eapply H. Qed.
Lemma no_load_snoc tr e t k : no_load tr t k → e ≠ (t, k, ALoad) → no_load (tr ++ [e]) t k.
Proof. intros H He i Hi. apply lookup_snoc_inv in Hi as [[_ Hi]|[_ Hi]]; [by eapply H|by symmetry in Hi]. Qed.
Lemma pc_ok_old tr e t k cl pc : e.1 ≠ (t, k) → pc_ok tr t k cl pc → pc_ok (tr ++ [e]) t k cl pc.
Proof.
  intros He H. destruct pc; cbn in *.
  - done.
  - destruct H as [H1 H2]. split; [done|by apply loads_old].
  - destruct H as (H1 & H2 & H3). split; [done|]. split; [by apply time_loads_old|]. apply no_load_snoc; [done|]. intros ->. by apply He.
  - destruct H as (H1 & H2 & H3). split; [done|]. split; [by apply timed_old|]. apply no_load_snoc; [done|]. intros ->. by apply He.
  - destruct H as (c' & H1 & H2 & H3 & H4 & H5 & H6 & H7). exists c'. split_and!; auto using timed_old, loads_old, copy_ok_old.
Qed.
Lemma written_snoc tr e r f v j : one_load (tr ++ [e]) → writers tr → written (tr ++ [e]) r f v j → written tr r f v j ∨ (j = length tr ∧ ∃ t k, e = (t, k, AWrite f v) ∧ loads tr t k r).
Proof.
  intros Ho Hw (t & k & Hj & Hl). apply lookup_snoc_inv in Hj as [[Hlt Hj]|[-> E]].
  - left. exists t, k. split; [done|]. destruct (Hw _ _ _ _ _ Hj) as (r0 & Hr0%loads_take). destruct Hl as (i & Hi & ->). pose proof Hr0 as (i0 & Hi0 & ->).
    assert (i = i0) as -> by (eapply Ho; [done|by apply lookup_snoc_old]). rewrite take_snoc; [done|]. apply lookup_lt_Some in Hi0. lia.
  - right. split; [done|]. exists t, k. split; [done|]. destruct Hl as (i & Hi & ->). apply lookup_snoc_inv in Hi as [[Hlt Hi]|[_ Hi]]; [|congruence].
    exists i. split; [done|]. by rewrite take_snoc by lia.
Qed.
Lemma written_old tr e r f v j : written tr r f v j → written (tr ++ [e]) r f v j.
Proof. intros (t & k & H1 & H2). exists t, k. split; [by apply lookup_snoc_old|by apply loads_old]. Qed.
Lemma valued_old tr e r f o : one_load (tr ++ [e]) → writers tr → (∀ t k v, e = (t, k, AWrite f v) → ¬ loads tr t k r) → valued tr r f o → valued (tr ++ [e]) r f o.
Proof.
  intros Ho Hw He H. destruct o as [v|]; cbn in *.
  - destruct H as (j & Hj & Hmax). exists j. split; [by apply written_old|]. intros j' v' Hj'. apply written_snoc in Hj' as [Hj'|(-> & t & k & E & Hl)]; [by eapply Hmax|by destruct (He _ _ _ E)|done|done].
  - intros j v Hj. apply written_snoc in Hj as [Hj|(-> & t & k & E & Hl)]; [by eapply H|by destruct (He _ _ _ E)|done|done].
Qed.
Lemma one_load_snoc tr t k a : one_load tr → (a = ALoad → no_load tr t k) → one_load (tr ++ [(t, k, a)]).
Proof.
  intros Ho Hn t' k' i j Hi Hj. apply lookup_snoc_inv in Hi as [[_ Hi]|[-> Hi]]; apply lookup_snoc_inv in Hj as [[_ Hj]|[-> Hj]].
  - by eapply Ho.
  - inversion Hj; subst. by destruct (Hn eq_refl i).
  - inversion Hi; subst. by destruct (Hn eq_refl j).
  - done.
Qed.
Lemma writers_snoc tr t k a : writers tr → (∀ f v, a = AWrite f v → ∃ r, loads tr t k r) → writers (tr ++ [(t, k, a)]).
Proof.
  intros Hw Ha t' k' f v j Hj. apply lookup_snoc_inv in Hj as [[_ Hj]|[-> Hj]].
  - rewrite take_snoc by (apply lookup_lt_Some in Hj; lia). by eapply Hw.
  - inversion Hj; subst. rewrite take_app. by eapply Ha.
Qed.
Lemma loads_new tr t k : loads (tr ++ [(t, k, ALoad)]) t k (outs tr).
Proof. exists (length tr). split; [by rewrite lookup_app_r, Nat.sub_diag|]. by rewrite take_app. Qed.
Lemma time_loads_new tr t k : time_loads (tr ++ [(t, k, ATimeLoad)]) t k (outs tr).
Proof. exists (length tr). split; [by rewrite lookup_app_r, Nat.sub_diag|]. by rewrite take_app. Qed.
Lemma read_valued ps s tr p f : finv ps s tr → p ≤ outs tr → valued tr p f (f_read s p f).
Proof.
  intros HI Hp. unfold f_read. destruct (lookup_lt_is_Some_2 (fs_heap s) p) as [o Ho]; [rewrite (fi_heap _ _ _ HI); lia|]. rewrite Ho. by apply (fi_val _ _ _ HI).
Qed.

Lemma thr_frame ps s tr t x e thr' (HI : finv ps s tr) : fs_thr s !! t = Some x → e.1 = (t, ft_done x) →
  (∃ x', thr' = <[t := x']> (fs_thr s) ∧ ft_calls x' = ft_calls x ∧ ft_done x ≤ ft_done x' ∧ (ft_done x = ft_done x' → ft_pc x' ≠ PNext) ∧
     pc_ok (tr ++ [e]) t (ft_done x') (ft_calls x' !! ft_done x') (ft_pc x')) →
  (∀ u y, thr' !! u = Some y → ps !! u = Some (ft_calls y) ∧ pc_ok (tr ++ [e]) u (ft_done y) (ft_calls y !! ft_done y) (ft_pc y)) ∧
  (∀ i u k a, (tr ++ [e]) !! i = Some (u, k, a) → ∃ y, thr' !! u = Some y ∧ k ≤ ft_done y ∧ (k = ft_done y → ft_pc y ≠ PNext)).
Proof.
  intros Hx He (x' & -> & Ec & Hle & Hpc & Hok). split.
  - intros u y Hy. destruct (decide (u = t)) as [->|Hne].
    + rewrite list_lookup_insert in Hy by (by eapply lookup_lt_Some). injection Hy as <-. split; [|done]. rewrite Ec. by apply (fi_thr _ _ _ HI t x Hx).
    + rewrite list_lookup_insert_ne in Hy by done. destruct (fi_thr _ _ _ HI u y Hy) as [H1 H2]. split; [done|]. apply pc_ok_old; [|done]. rewrite He. congruence.
  - intros i u k a Hi. apply lookup_snoc_inv in Hi as [[_ Hi]|[_ Hi]].
    + destruct (fi_early _ _ _ HI _ _ _ _ Hi) as (y & Hy & Hk & Hn). destruct (decide (u = t)) as [->|Hne].
      * assert (y = x) as -> by congruence. exists x'. rewrite list_lookup_insert by (by eapply lookup_lt_Some). split; [done|]. split; [lia|]. intros ->. apply Hpc. lia.
      * exists y. by rewrite list_lookup_insert_ne.
    + subst e. cbn in He. injection He as -> ->. exists x'. rewrite list_lookup_insert by (by eapply lookup_lt_Some). done.
Qed.
Lemma pure_step ps s tr t x call a pc' : finv ps s tr → fs_thr s !! t = Some x → ft_calls x !! ft_done x = Some call →
  (∀ f v, a ≠ AWrite f v) → (∀ tm c, a ≠ AOut tm c) → (a = ALoad → no_load tr t (ft_done x)) → pc' ≠ PNext →
  pc_ok (tr ++ [(t, ft_done x, a)]) t (ft_done x) (Some call) pc' → finv ps (f_goto t x pc' s) (tr ++ [(t, ft_done x, a)]).
Proof.
  intros HI Hx Hcall Hw Ho Hl Hpc Hok.
  assert (one_load (tr ++ [(t, ft_done x, a)])) as H1 by (apply one_load_snoc; [apply HI|done]).
  assert (outs (tr ++ [(t, ft_done x, a)]) = outs tr) as Eo. { rewrite outs_snoc. destruct a; cbn; try lia. by destruct (Ho tm c). }
  destruct (thr_frame ps s tr t x (t, ft_done x, a) (<[t := FThread (ft_calls x) (ft_done x) pc']> (fs_thr s)) HI Hx eq_refl) as [H2 H3].
  { eexists. split; [done|]. cbn. rewrite Hcall. split_and!; done. }
  split; cbn.
  - rewrite Eo. apply HI.
  - rewrite Eo. apply HI.
  - intros p o Hp f. apply valued_old; [done|apply HI| |by apply (fi_val _ _ _ HI)]. intros t' k' v [= _ _ E]. by destruct (Hw f v).
  - done.
  - apply writers_snoc; [apply HI|]. intros f v ->. by destruct (Hw f v).
  - exact H2.
  - exact H3.
  - intros i t' k' tm c Hi. apply lookup_snoc_inv in Hi as [[Hlt Hi]|[_ Hi]]; [rewrite take_snoc by lia; by apply (fi_out _ _ _ HI)|]. inversion Hi; subst. by destruct (Ho tm c).
Qed.
Lemma no_events ps s tr t x : finv ps s tr → fs_thr s !! t = Some x → ft_pc x = PNext → no_load tr t (ft_done x).
Proof. intros HI Hx Hpc i Hi. destruct (fi_early _ _ _ HI _ _ _ _ Hi) as (y & Hy & _ & Hn). assert (y = x) as -> by congruence. by apply Hn. Qed.
Lemma write_step ps s tr t x p f v : finv ps s tr → fs_thr s !! t = Some x → ft_calls x !! ft_done x = Some (FMod f v) → loads tr t (ft_done x) p →
  finv ps (f_next t x (FSt (alter (fput f v) p (fs_heap s)) (fs_ptr s) (fs_thr s))) (tr ++ [(t, ft_done x, AWrite f v)]).
Proof.
  intros HI Hx Hcall Hl.
  assert (one_load (tr ++ [(t, ft_done x, AWrite f v)])) as H1 by (apply one_load_snoc; [apply HI|done]).
  destruct (thr_frame ps s tr t x (t, ft_done x, AWrite f v) (<[t := FThread (ft_calls x) (S (ft_done x)) PNext]> (fs_thr s)) HI Hx eq_refl) as [H2 H3].
  { eexists. split; [done|]. cbn. split_and!; [done|lia|lia|done]. }
  split; cbn.
  - rewrite outs_snoc. cbn. rewrite Nat.add_0_r. apply HI.
  - rewrite outs_snoc. cbn. rewrite Nat.add_0_r, alter_length. apply HI.
  - intros q o Hq g. destruct (decide (q = p)) as [->|Hne].
    + rewrite list_lookup_alter in Hq. destruct (fs_heap s !! p) as [o0|] eqn:Ep; [|done]. injection Hq as <-. unfold fput. destruct (decide (g = f)) as [->|Hg].
      * exists (length tr). split; [exists t, (ft_done x); split; [by rewrite lookup_app_r, Nat.sub_diag|by apply loads_old]|].
        intros j' v' (t' & k' & Hj & _). apply lookup_lt_Some in Hj. rewrite app_length in Hj. cbn in Hj. lia.
      * apply valued_old; [done|apply HI| |by apply (fi_val _ _ _ HI)]. congruence.
    + rewrite list_lookup_alter_ne in Hq by done. apply valued_old; [done|apply HI| |by apply (fi_val _ _ _ HI)]. intros t' k' v' [= <- <- <- <-] Hl'.
      apply Hne. destruct Hl as (i & Hi & ->), Hl' as (i' & Hi' & ->). by rewrite (fi_one _ _ _ HI _ _ _ _ Hi Hi').
  - done.
  - apply writers_snoc; [apply HI|]. intros f' v' _. by exists p.
  - exact H2.
  - exact H3.
  - intros i t' k' tm c Hi. apply lookup_snoc_inv in Hi as [[Hlt Hi]|[_ Hi]]; [rewrite take_snoc by lia; by apply (fi_out _ _ _ HI)|]. inversion Hi.
Qed.
Lemma out_step ps s tr t x tm c : finv ps s tr → fs_thr s !! t = Some x → out_ok ps tr t (ft_done x) tm c →
  finv ps (f_next t x (FSt (fs_heap s ++ [fobj0]) (length (fs_heap s)) (fs_thr s))) (tr ++ [(t, ft_done x, AOut tm c)]).
Proof.
  intros HI Hx Hok. set (e := (t, ft_done x, AOut tm c)).
  assert (one_load (tr ++ [e])) as H1 by (apply one_load_snoc; [apply HI|done]).
  destruct (thr_frame ps s tr t x e (<[t := FThread (ft_calls x) (S (ft_done x)) PNext]> (fs_thr s)) HI Hx eq_refl) as [H2 H3].
  { eexists. split; [done|]. cbn. split_and!; [done|lia|lia|done]. }
  assert (outs (tr ++ [e]) = S (outs tr)) as Eo by (rewrite outs_snoc; cbn; lia).
  split; cbn.
  - rewrite Eo. apply HI.
  - rewrite Eo, app_length, (fi_heap _ _ _ HI). cbn. lia.
  - intros q o Hq g. apply lookup_snoc_inv in Hq as [[Hlt Hq]|[-> ->]].
    + apply valued_old; [done|apply HI|by intros ? ? ? ?|by apply (fi_val _ _ _ HI)].
    + intros j v Hj. apply written_snoc in Hj as [(t' & k' & _ & Hl)|(_ & t' & k' & E & _)]; [|done|done|apply HI]. apply loads_le in Hl. rewrite (fi_heap _ _ _ HI) in Hl. lia.
  - done.
  - apply writers_snoc; [apply HI|done].
  - exact H2.
  - exact H3.
  - intros i t' k' tm' c' Hi. apply lookup_snoc_inv in Hi as [[Hlt Hi]|[-> Hi]]; [rewrite take_snoc by lia; by apply (fi_out _ _ _ HI)|]. inversion Hi; subst. by rewrite take_app.
Qed.
Lemma all_fields_lt n : n < 3 → ∃ f, all_fields !! n = Some f.
Proof. intros H. apply lookup_lt_is_Some_2. cbn. lia. Qed.
Lemma finv_step ps st t : finv ps st.1 st.2 → finv ps (f_step st t).1 (f_step st t).2.
Proof.
  destruct st as [s tr]. cbn [fst snd]. intros HI. unfold f_step. destruct (fs_thr s !! t) as [x|] eqn:Hx; [|done]. destruct (ft_calls x !! ft_done x) as [call|] eqn:Hcall; [|done].
  destruct (fi_thr _ _ _ HI t x Hx) as [Hps Hpc]. rewrite Hcall in Hpc. unfold f_thread. destruct (ft_pc x) as [|p|p|tm|p tm c] eqn:Epc; cbn [pc_ok] in Hpc.
  - pose proof (no_events _ _ _ _ _ HI Hx Epc) as Hno. destruct call as [f v|[]|]; cbn [fst snd].
    + apply (pure_step _ _ _ _ _ _ _ _ HI Hx Hcall); [done|done|first [done|intros _; exact Hno]|done|]. cbn. split; [eauto|]. rewrite (fi_ptr _ _ _ HI). apply loads_new.
    + apply (pure_step _ _ _ _ _ _ _ _ HI Hx Hcall); [done|done|first [done|intros _; exact Hno]|done|]. cbn. split; [done|]. split; [rewrite (fi_ptr _ _ _ HI); apply time_loads_new|]. by apply no_load_snoc.
    + apply (pure_step _ _ _ _ _ _ _ _ HI Hx Hcall); [done|done|first [done|intros _; exact Hno]|done|]. cbn. eexists. split; [done|]. split; [done|]. split; [done|]. split; [done|]. split; [lia|]. split; [rewrite (fi_ptr _ _ _ HI); apply loads_new|]. by intros ? ? ? _ ?.
    + apply (pure_step _ _ _ _ _ _ _ _ HI Hx Hcall); [done|done|first [done|intros _; exact Hno]|done|]. cbn. eexists. split; [done|]. split; [done|]. split; [done|]. split; [done|]. split; [lia|]. split; [rewrite (fi_ptr _ _ _ HI); apply loads_new|]. by intros ? ? ? _ ?.
  - destruct Hpc as [(f & v & [= ->]) Hl]. cbn [fst snd]. by apply write_step.
  - destruct Hpc as (E & Hl & Hno). cbn [fst snd]. apply (pure_step _ _ _ _ _ _ _ _ HI Hx Hcall); [done|done|first [done|intros _; exact Hno]|done|]. cbn. split; [done|]. split; [|by apply no_load_snoc].
    exists (length tr), p. rewrite take_app. split; [by rewrite lookup_app_r, Nat.sub_diag|]. split; [done|]. eapply read_valued; [done|]. by eapply time_loads_le.
  - destruct Hpc as ([= ->] & Ht & Hno). cbn [fst snd]. apply (pure_step _ _ _ _ _ _ _ _ HI Hx Hcall); [done|done|first [done|intros _; exact Hno]|done|]. cbn. eexists. split; [done|]. split; [done|]. split; [intros _; by apply timed_old|]. split; [done|]. split; [lia|].
    split; [rewrite (fi_ptr _ _ _ HI); apply loads_new|]. by intros ? ? ? _ ?.
  - destruct Hpc as (cl & [= <-] & H1 & H2 & H3 & H4 & H5 & H6). destruct (all_fields !! length c) as [f|] eqn:Ef; cbn [fst snd].
    + apply (pure_step _ _ _ _ _ _ _ _ HI Hx Hcall); [done|done|first [done|intros _; exact Hno]|done|]. cbn. exists call. split; [done|]. split; [done|]. split; [intros; by apply timed_old, H2|]. split; [done|].
      split; [rewrite app_length; cbn; apply lookup_lt_Some in Ef; cbn in Ef; lia|]. split; [by apply loads_old|].
      intros n g o Hg Hn. apply lookup_snoc_inv in Hn as [[_ Hn]|[-> ->]]; [apply copied_old; by eapply H6|]. assert (g = f) as -> by congruence.
      exists (length tr). rewrite take_app. split; [by rewrite lookup_app_r, Nat.sub_diag|]. split; [done|]. eapply read_valued; [done|]. by eapply loads_le.
    + apply out_step; [done|done|]. exists call, p. split; [unfold call_of; rewrite Hps; done|]. split; [done|]. split; [done|]. split; [done|]. split; [|done].
      destruct (decide (length c < 3)) as [Hlt|]; [|lia]. destruct (all_fields_lt _ Hlt) as [f Hf]. congruence.
Qed.
Lemma finv_run ps ls : finv ps (f_run ps ls).1 (f_run ps ls).2.
Proof.
  induction ls as [|t ls IH] using rev_ind; [|unfold f_run; rewrite foldl_app; by apply finv_step].
  split; cbn; try done.
  - intros p o Hp f. assert (o = fobj0) as -> by (destruct p; [by injection Hp|done]). intros j v (t & k & H & _). done.
  - intros t x Hx. rewrite list_lookup_fmap in Hx. destruct (ps !! t); [|done]. by injection Hx as <-.
Qed.

(** ** What an emission carries *)
Lemma take_lookup {A} (l : list A) i j x : take i l !! j = Some x → j < i ∧ l !! j = Some x.
Proof. intros H. pose proof (lookup_lt_Some _ _ _ H) as Hl. rewrite take_length in Hl. split; [lia|]. by rewrite lookup_take in H by lia. Qed.
Lemma take_take_le {A} (l : list A) i j : j ≤ i → take j (take i l) = take j l.
Proof. intros. rewrite take_take. f_equal. lia. Qed.
Lemma field_index f : ∃ n, all_fields !! n = Some f ∧ n < 3 ∧ ∀ c, field_of c f = c !! n ≫= id.
Proof. destruct f; [exists 0|exists 1|exists 2]; split_and!; done || (cbn; lia). Qed.
Lemma run_exact ps ls i t k tm c : let tr := (f_run ps ls).2 in tr !! i = Some (t, k, AOut tm c) →
  ∃ call r, call_of ps t k = Some call ∧ (∀ f v, call ≠ FMod f v) ∧ loads (take i tr) t k r ∧
    (∀ f, ∃ j, j < i ∧ tr !! j = Some (t, k, ARead f) ∧ loads (take j tr) t k r ∧ valued (take j tr) r f (field_of c f)) ∧
    (call = FEmit true → ∃ j r', j < i ∧ tr !! j = Some (t, k, ATimeRead) ∧ time_loads (take j tr) t k r' ∧ valued (take j tr) r' FTimeout tm) ∧
    (call ≠ FEmit true → tm = None).
Proof.
  intros tr Hi. destruct (fi_out _ _ _ (finv_run ps ls) _ _ _ _ _ Hi) as (call & r & H1 & H2 & H3 & H4 & H5 & H6 & H7). fold tr in H3, H6, H7. exists call, r.
  split; [done|]. split; [done|]. split; [done|]. split; [|split; [|done]].
  - intros f. destruct (field_index f) as (n & Hn & Hlt & Ef). destruct (lookup_lt_is_Some_2 c n) as [o Ho]; [lia|]. destruct (H7 n f o Hn Ho) as (j & Hj & Hl & Hv). apply take_lookup in Hj as [Hji Hj].
    rewrite take_take_le in Hl, Hv by lia. exists j. rewrite Ef, Ho. done.
  - intros E. destruct (H3 E) as (j & r' & Hj & Hl & Hv). apply take_lookup in Hj as [Hji Hj]. rewrite take_take_le in Hl, Hv by lia. exists j, r'. done.
Qed.
(** Modifiers are written by the calls that say so, before the next call of their goroutine begins. *)
Record pinv (ps : list (list fcall)) (st : fst_ * list fevent) : Prop := {
  pi_calls : ∀ j t k f v, st.2 !! j = Some (t, k, AWrite f v) → call_of ps t k = Some (FMod f v);
  pi_done : ∀ t x k f v, fs_thr st.1 !! t = Some x → k < ft_done x → call_of ps t k = Some (FMod f v) → ∃ j, st.2 !! j = Some (t, k, AWrite f v);
  pi_order : ∀ j t k' a k f v, st.2 !! j = Some (t, k', a) → k < k' → call_of ps t k = Some (FMod f v) → ∃ j', j' < j ∧ st.2 !! j' = Some (t, k, AWrite f v)
}.
Lemma f_thread_effect t x call s s' a : f_thread t x call s = (s', a) → ft_pc x ≠ PNext ∨ ft_pc x = PNext →
  (∃ x', fs_thr s' = <[t := x']> (fs_thr s) ∧ (ft_done x' = ft_done x ∨ (ft_done x' = S (ft_done x) ∧ ∀ f v, call = FMod f v → a = AWrite f v ∨ ∃ tm c, a = AOut tm c))) ∨ s' = s.
Proof.
  intros H _. unfold f_thread in H. destruct (ft_pc x) as [|p|p|tm|p tm c].
  - left. destruct call as [f v|[]|]; inversion H; subst; eexists; (split; [reflexivity|left; reflexivity]).
  - destruct call as [f v|b|]; inversion H; subst; [|by right..]. left. eexists. split; [reflexivity|]. right. split; [done|]. intros f' v' [= <- <-]. by left.
  - left. inversion H; subst. eexists; (split; [reflexivity|left; reflexivity]).
  - left. inversion H; subst. eexists; (split; [reflexivity|left; reflexivity]).
  - left. destruct (all_fields !! length c); inversion H; subst; eexists; (split; [reflexivity|]); [by left|right]. split; [done|]. intros. right. eauto.
Qed.
Lemma f_thread_act t x call s s' a f v : f_thread t x call s = (s', a) → a = AWrite f v → call = FMod f v.
Proof.
  intros H ->. unfold f_thread in H. destruct (ft_pc x) as [|p|p|tm|p tm c]; [destruct call as [|[]|]| |..]; try (destruct call); try (by inversion H). all: destruct (all_fields !! length c); by inversion H.
Qed.
Lemma f_thread_out t x call s s' tm c : f_thread t x call s = (s', AOut tm c) → ∃ p, ft_pc x = PCopy p tm c.
Proof.
  intros H. unfold f_thread in H. destruct (ft_pc x) as [|p|p|tm'|p tm' c']; [destruct call as [|[]|]| |..]; try (destruct call); try (by inversion H).
  all: destruct (all_fields !! length c'); inversion H; subst; eauto.
Qed.
Lemma pinv_step ps st t : finv ps st.1 st.2 → pinv ps st → pinv ps (f_step st t).
Proof.
  destruct st as [s tr]. cbn [fst snd]. intros HI HP. unfold f_step. destruct (fs_thr s !! t) as [x|] eqn:Hx; [|done]. destruct (ft_calls x !! ft_done x) as [call|] eqn:Hcall; [|done].
  destruct (f_thread t x call s) as [s' a] eqn:E. destruct (fi_thr _ _ _ HI t x Hx) as [Hps Hpc]. assert (call_of ps t (ft_done x) = Some call) as Hco by (unfold call_of; by rewrite Hps).
  assert (∀ k f v, call_of ps t k = Some (FMod f v) → k < ft_done x → ∃ j, tr !! j = Some (t, k, AWrite f v)) as Hold by (intros; by eapply (pi_done _ _ HP)).
  split; cbn.
  - intros j u k f v Hj. apply lookup_snoc_inv in Hj as [[_ Hj]|[_ Hj]]; [by eapply (pi_calls _ _ HP)|]. inversion Hj; subst. by rewrite Hco, (f_thread_act _ _ _ _ _ _ f v E eq_refl).
  - intros u y k f v Hy Hk Hc. assert (∃ j, tr !! j = Some (u, k, AWrite f v) ∨ (u = t ∧ k = ft_done x ∧ a = AWrite f v)) as (j & [Hj|(-> & -> & ->)]).
    { destruct (f_thread_effect _ _ _ _ _ _ E) as [(x' & Et & Hd)| ->]; [by destruct (ft_pc x); auto| |].
      - rewrite Et in Hy. destruct (decide (u = t)) as [->|Hne].
        + rewrite list_lookup_insert in Hy by (by eapply lookup_lt_Some). injection Hy as <-. destruct Hd as [Hd|[Hd Ha]].
          * rewrite Hd in Hk. destruct (Hold k f v Hc Hk) as [j Hj]. eauto.
          * destruct (decide (k = ft_done x)) as [->|]; [|destruct (Hold k f v Hc) as [j Hj]; [lia|eauto]]. rewrite Hco in Hc. injection Hc as ->. exists 0. right.
            destruct (Ha _ _ eq_refl) as [?|(tm & c & ->)]; [done|]. destruct (f_thread_out _ _ _ _ _ _ _ E) as [p Ep]. rewrite Ep in Hpc. cbn in Hpc. destruct Hpc as (cl & Ecl & Hn & _). rewrite Hcall in Ecl. injection Ecl as <-. by destruct (Hn f v).
        + rewrite list_lookup_insert_ne in Hy by done. destruct (pi_done _ _ HP u y k f v Hy Hk Hc) as [j Hj]. eauto.
      - destruct (pi_done _ _ HP u y k f v Hy Hk Hc) as [j Hj]. eauto. }
    + exists j. by apply lookup_snoc_old.
    + exists (length tr). by rewrite lookup_app_r, Nat.sub_diag.
  - intros j u k' b k f v Hj Hlt Hc. apply lookup_snoc_inv in Hj as [[_ Hj]|[-> Hj]].
    + destruct (pi_order _ _ HP _ _ _ _ _ _ _ Hj Hlt Hc) as (j' & H1 & H2). exists j'. split; [done|]. by apply lookup_snoc_old.
    + inversion Hj; subst. destruct (Hold k f v Hc Hlt) as [j' Hj']. exists j'. split; [by eapply lookup_lt_Some|by apply lookup_snoc_old].
Qed.
Lemma pinv_run ps ls : pinv ps (f_run ps ls).
Proof.
  induction ls as [|t ls IH] using rev_ind; [|unfold f_run in *; rewrite foldl_app; apply pinv_step; [apply finv_run|done]].
  split; cbn; try done. intros t x k f v Hx. rewrite list_lookup_fmap in Hx. destruct (ps !! t); [|done]. injection Hx as <-. cbn. lia.
Qed.
Lemma run_source ps ls i t k tm c f v : let tr := (f_run ps ls).2 in tr !! i = Some (t, k, AOut tm c) → field_of c f = Some v →
  ∃ u m j r, j < i ∧ tr !! j = Some (u, m, AWrite f v) ∧ call_of ps u m = Some (FMod f v) ∧ loads tr u m r ∧ loads tr t k r.
Proof.
  intros tr Hi Hf. destruct (run_exact ps ls i t k tm c Hi) as (call & r & _ & _ & _ & Hr & _). destruct (Hr f) as (j & Hj & _ & Hl & Hv). rewrite Hf in Hv.
  destruct Hv as (w & (u & m & Hw & Hlw) & _). apply take_lookup in Hw as [Hwj Hw]. fold tr in Hw. exists u, m, w, r. split; [lia|]. split; [done|].
  split; [by eapply (pi_calls _ _ (pinv_run ps ls))|]. split; by eapply loads_take.
Qed.
Lemma run_source_timeout ps ls i t k tm c v : let tr := (f_run ps ls).2 in tr !! i = Some (t, k, AOut tm c) → tm = Some v →
  ∃ u m j r, j < i ∧ tr !! j = Some (u, m, AWrite FTimeout v) ∧ call_of ps u m = Some (FMod FTimeout v) ∧ loads tr u m r ∧ time_loads tr t k r.
Proof.
  intros tr Hi ->. destruct (run_exact ps ls i t k (Some v) c Hi) as (call & r & _ & _ & _ & _ & Ht & Hn).
  destruct (decide (call = FEmit true)) as [E|E]; [|by specialize (Hn E)]. destruct (Ht E) as (j & r' & Hj & _ & Hl & Hv).
  destruct Hv as (w & (u & m & Hw & Hlw) & _). apply take_lookup in Hw as [Hwj Hw]. fold tr in Hw. exists u, m, w, r'. split; [lia|]. split; [done|].
  split; [by eapply (pi_calls _ _ (pinv_run ps ls))|]. split; [by eapply loads_take|]. destruct Hl as (q & Hq & ->). apply take_lookup in Hq as [Hqj Hq]. fold tr in Hq. exists q. split; [done|]. fold tr. by rewrite take_take_le by lia.
Qed.

(** ** Two emissions with the same modifier overlap *)
Lemma outs_lt tr i l e : tr !! i = Some e → is_out e = true → i < l → outs (take i tr) < outs (take l tr).
Proof.
  intros Hi He Hl. rewrite <- (take_drop i (take l tr)). rewrite outs_app, take_take_le by lia. rewrite skipn_firstn_comm. rewrite (drop_S _ _ _ Hi).
  destruct (l - i) as [|n] eqn:E; [lia|]. cbn [take]. change (e :: take n (drop (S i) tr)) with ([e] ++ take n (drop (S i) tr)). rewrite outs_app. unfold outs at 4. cbn. rewrite decide_True by done. cbn. lia.
Qed.
Lemma outs_mono tr i j : i ≤ j → outs (take i tr) ≤ outs (take j tr).
Proof. intros H. rewrite <- (take_take_le tr j i H). apply outs_take. Qed.
Lemma one_round ps ls t k r r' : let tr := (f_run ps ls).2 in loads tr t k r → loads tr t k r' → r = r'.
Proof. intros tr (i & Hi & ->) (j & Hj & ->). by rewrite (fi_one _ _ _ (finv_run ps ls) _ _ _ _ Hi Hj). Qed.
Lemma out_after ps ls i t k tm c l : let tr := (f_run ps ls).2 in tr !! i = Some (t, k, AOut tm c) → tr !! l = Some (t, k, ALoad) → l < i.
Proof.
  intros tr Hi Hl. destruct (run_exact ps ls i t k tm c Hi) as (call & r & _ & _ & (l' & Hl' & _) & _). apply take_lookup in Hl' as [H1 H2]. by rewrite (fi_one _ _ _ (finv_run ps ls) _ _ _ _ Hl H2).
Qed.
Lemma run_overlap ps ls i1 t1 k1 tm1 c1 i2 t2 k2 tm2 c2 f v : let tr := (f_run ps ls).2 in
  tr !! i1 = Some (t1, k1, AOut tm1 c1) → tr !! i2 = Some (t2, k2, AOut tm2 c2) → field_of c1 f = Some v → field_of c2 f = Some v →
  (∀ u m u' m', call_of ps u m = Some (FMod f v) → call_of ps u' m' = Some (FMod f v) → (u, m) = (u', m')) →
  ∃ l1 l2, tr !! l1 = Some (t1, k1, ALoad) ∧ tr !! l2 = Some (t2, k2, ALoad) ∧ l1 < i2 ∧ l2 < i1.
Proof.
  intros tr H1 H2 F1 F2 Hu. destruct (run_source _ _ _ _ _ _ _ _ _ H1 F1) as (u & m & j1 & r & _ & _ & C1 & L1 & E1). destruct (run_source _ _ _ _ _ _ _ _ _ H2 F2) as (u' & m' & j2 & r' & _ & _ & C2 & L2 & E2).
  pose proof (Hu _ _ _ _ C1 C2) as E. injection E as <- <-. pose proof (one_round _ _ _ _ _ _ L1 L2) as <-. fold tr in E1, E2. destruct E1 as (l1 & Hl1 & Er1), E2 as (l2 & Hl2 & Er2).
  pose proof (out_after ps ls i1 t1 k1 tm1 c1 l1 H1 Hl1) as A1. pose proof (out_after ps ls i2 t2 k2 tm2 c2 l2 H2 Hl2) as A2. exists l1, l2. split; [done|]. split; [done|]. split.
  - destruct (decide (l1 < i2)) as [|Hn]; [done|]. assert (l1 ≠ i2) as Hne by (intros ->; congruence). pose proof (outs_lt tr i2 l1 _ H2 eq_refl ltac:(lia)). pose proof (outs_mono tr l2 i2 ltac:(lia)). lia.
  - destruct (decide (l2 < i1)) as [|Hn]; [done|]. assert (l2 ≠ i1) as Hne by (intros ->; congruence). pose proof (outs_lt tr i1 l2 _ H1 eq_refl ltac:(lia)). pose proof (outs_mono tr l1 i1 ltac:(lia)). lia.
Qed.

(** ** A modifier that nobody disturbs is carried *)
Lemma outs_same tr a b : a ≤ b → (∀ j e, a ≤ j < b → tr !! j = Some e → is_out e = false) → outs (take a tr) = outs (take b tr).
Proof.
  intros Hab H. rewrite <- (take_drop a (take b tr)). rewrite outs_app, take_take_le by lia. enough (outs (drop a (take b tr)) = 0) by lia.
  unfold outs. assert (filter (λ e, is_out e = true) (drop a (take b tr)) = []) as ->; [|done]. apply elem_of_nil_inv. intros e He. apply elem_of_list_filter in He as [H1 H2].
  apply elem_of_list_lookup in H2 as [j Hj]. rewrite lookup_drop in Hj. apply take_lookup in Hj as [H3 H4]. rewrite (H (a + j) e) in H1; [done|lia|done].
Qed.
Lemma valued_own ps ls t k f v a j0 o : let tr := (f_run ps ls).2 in tr !! a = Some (t, k, ALoad) → call_of ps t k = Some (FMod f v) →
  (∃ w, a < w < j0 ∧ tr !! w = Some (t, k, AWrite f v)) → (∀ j u m v', a < j < j0 → tr !! j = Some (u, m, AWrite f v') → (u, m) = (t, k)) →
  valued (take j0 tr) (outs (take a tr)) f o → o = Some v.
Proof.
  intros tr Ha Hc (w & Hw1 & Hw2) Hno Hv. assert (written (take j0 tr) (outs (take a tr)) f v w) as Hw.
  { exists t, k. split; [by rewrite lookup_take by lia|]. exists a. split; [by rewrite lookup_take by lia|]. by rewrite take_take_le by lia. }
  destruct o as [v'|]; cbn in Hv; [|by destruct (Hv w v)]. destruct Hv as (j & (u & m & Hj & _) & Hmax). specialize (Hmax _ _ Hw). apply take_lookup in Hj as [Hj1 Hj2].
  assert ((u, m) = (t, k)) as E by (eapply Hno; [|exact Hj2]; lia). injection E as -> ->. pose proof (pi_calls _ _ (pinv_run ps ls) _ _ _ _ _ Hj2) as Hc'. congruence.
Qed.
Lemma run_kept ps ls t k f v k' a b i tm c : let tr := (f_run ps ls).2 in
  tr !! a = Some (t, k, ALoad) → call_of ps t k = Some (FMod f v) → tr !! b = Some (t, k', ALoad) → tr !! i = Some (t, k', AOut tm c) → k < k' → a < b →
  (∀ j e, a ≤ j < b → tr !! j = Some e → is_out e = false) → (∀ j u m v', a < j < i → tr !! j = Some (u, m, AWrite f v') → (u, m) = (t, k)) → field_of c f = Some v.
Proof.
  intros tr Ha Hc Hb Hi Hk Hab Hout Hno. destruct (run_exact ps ls i t k' tm c Hi) as (call & r & _ & _ & _ & Hr & _). destruct (Hr f) as (j0 & Hj0 & Hrd & Hl & Hv). fold tr in Hrd, Hl, Hv.
  assert (r = outs (take a tr)) as ->. { rewrite (outs_same tr a b) by (lia || done). eapply (one_round ps ls); [by eapply loads_take|]. by exists b. }
  destruct (pi_order _ _ (pinv_run ps ls) _ _ _ _ _ _ _ Hb Hk Hc) as (w & Hwb & Hw). fold tr in Hw. eapply (valued_own ps ls t k f v a j0); [done|done| | |done].
  - exists w. split; [|done]. split.
    + destruct (fi_wr _ _ _ (finv_run ps ls) t k f v w Hw) as (r & a' & Ha' & _). apply take_lookup in Ha' as [Ha1 Ha2]. by rewrite (fi_one _ _ _ (finv_run ps ls) _ _ _ _ Ha Ha2).
    + destruct Hl as (b' & Hb' & _). apply take_lookup in Hb' as [Hb1 Hb2]. rewrite (fi_one _ _ _ (finv_run ps ls) _ _ _ _ Hb2 Hb) in Hb1. lia.
  - intros j u m v' Hj. apply Hno. lia.
Qed.
Lemma run_kept_timeout ps ls t k v k' a i tm c : let tr := (f_run ps ls).2 in
  tr !! a = Some (t, k, ALoad) → call_of ps t k = Some (FMod FTimeout v) → call_of ps t k' = Some (FEmit true) → tr !! i = Some (t, k', AOut tm c) → k < k' →
  (∀ j e, a ≤ j < i → tr !! j = Some e → is_out e = false) → (∀ j u m v', a < j < i → tr !! j = Some (u, m, AWrite FTimeout v') → (u, m) = (t, k)) → tm = Some v.
Proof.
  intros tr Ha Hc Hc' Hi Hk Hout Hno. destruct (run_exact ps ls i t k' tm c Hi) as (call & _ & Hcall & _ & _ & _ & Ht & _). assert (call = FEmit true) as E by congruence.
  destruct (Ht E) as (j0 & r & Hj0 & Hrd & Hl & Hv). fold tr in Hrd, Hl, Hv. destruct Hl as (b & Hb & ->). apply take_lookup in Hb as [Hbj Hb].
  destruct (pi_order _ _ (pinv_run ps ls) _ _ _ _ _ _ _ Hb Hk Hc) as (w & Hwb & Hw). fold tr in Hw.
  destruct (fi_wr _ _ _ (finv_run ps ls) t k FTimeout v w Hw) as (r & a' & Ha' & _). apply take_lookup in Ha' as [Ha1 Ha2]. rewrite <- (fi_one _ _ _ (finv_run ps ls) _ _ _ _ Ha Ha2) in Ha1.
  rewrite take_take_le in Hv by lia. rewrite <- (outs_same tr a b) in Hv by (lia || (intros; eapply Hout; [|done]; lia)).
  eapply (valued_own ps ls t k FTimeout v a j0); [done|done| | |done].
  - exists w. split; [lia|done].
  - intros j u m v' Hj. apply Hno. lia.
Qed.

(** ** One goroutine *)
Definition expected_upto (cs : list fcall) (n : nat) : list (nat * option nat * list (option nat)) :=
  omap (λ k, match cs !! k with
             | Some (FMod _ _) | None => None
             | Some c => let l := pending (take k cs) in Some (k, match c with FEmit true => l FTimeout | _ => None end, l <$> all_fields)
             end) (seq 0 n).
Lemma expected_S cs n : expected_upto cs (S n) = expected_upto cs n ++ match cs !! n with
  | Some (FMod _ _) | None => []
  | Some c => let l := pending (take n cs) in [(n, match c with FEmit true => l FTimeout | _ => None end, l <$> all_fields)] end.
Proof. unfold expected_upto. rewrite seq_S, omap_app. cbn. f_equal. destruct (cs !! n) as [[]|]; done. Qed.
Definition one_ok (cs : list fcall) (s : fst_) (x : fthread) : Prop :=
  let l := pending (take (ft_done x) cs) in
  match ft_pc x with
  | PNext => True
  | PSet p => p = fs_ptr s ∧ ∃ f v, cs !! ft_done x = Some (FMod f v)
  | PTime p => p = fs_ptr s ∧ cs !! ft_done x = Some (FEmit true)
  | PLoad tm => tm = l FTimeout ∧ cs !! ft_done x = Some (FEmit true)
  | PCopy p tm c => p = fs_ptr s ∧ ∃ call, cs !! ft_done x = Some call ∧ (∀ f v, call ≠ FMod f v) ∧ tm = match call with FEmit true => l FTimeout | _ => None end ∧ c = l <$> take (length c) all_fields ∧ length c ≤ 3
  end.
Definition one_inv (cs : list fcall) (st : fst_ * list fevent) : Prop :=
  ∃ x o, fs_thr st.1 = [x] ∧ ft_calls x = cs ∧ fs_heap st.1 !! fs_ptr st.1 = Some o ∧ (∀ f, o f = pending (take (ft_done x) cs) f) ∧ one_ok cs st.1 x ∧
    emissions st.2 = expected_upto cs (ft_done x) ∧ ft_done x ≤ length cs.
Lemma emissions_snoc tr (e : fevent) : emissions (tr ++ [e]) = emissions tr ++ match e with (_, k, AOut tm c) => [(k, tm, c)] | _ => [] end.
Proof. unfold emissions. rewrite omap_app. by destruct e as [[] []]. Qed.
Lemma pending_S cs n c : cs !! n = Some c → pending (take (S n) cs) = pend (pending (take n cs)) c.
Proof. intros H. rewrite (take_S_r _ _ _ H). unfold pending. by rewrite foldl_app. Qed.
Lemma one_step cs st t : one_inv cs st → one_inv cs (f_step st t).
Proof.
  destruct st as [s tr]. intros (x & o & Ex & Ec & Ho & Hp & Hok & He & Hle). cbn [fst snd] in *. unfold f_step. destruct (fs_thr s !! t) as [y|] eqn:Hy; [|by exists x, o].
  rewrite Ex in Hy. assert (t = 0 ∧ y = x) as [-> ->] by (destruct t; [by injection Hy|done]). rewrite Ec. destruct (cs !! ft_done x) as [call|] eqn:Hc; [|by exists x, o].
  assert (f_read s (fs_ptr s) = o) as Er by (unfold f_read; by rewrite Ho). unfold one_ok in Hok. unfold f_thread.
  assert (∀ pc' a, ft_pc x ≠ pc' → one_ok cs s (FThread cs (ft_done x) pc') → (∀ tm c, a ≠ AOut tm c) → one_inv cs (f_goto 0 x pc' s, tr ++ [(0, ft_done x, a)])) as Hgo.
  { intros pc' a _ Hok' Ha. eexists _, o. cbn [fst snd f_goto fs_thr]. rewrite Ex, Ec. split; [reflexivity|]. cbn [ft_calls ft_done ft_pc fs_heap fs_ptr f_goto]. split; [done|]. split; [done|]. split; [done|]. split; [exact Hok'|].
    split; [|done]. rewrite emissions_snoc, He. destruct a; try apply app_nil_r. by destruct (Ha tm c). }
  destruct (ft_pc x) as [|p|p|tm|p tm c] eqn:Epc.
  - destruct call as [f v|[]|]; apply Hgo; try done; cbn; (split; [done|]); eauto; eexists; (split; [done|]); split; try done; split; try done; split; try done; lia.
  - destruct Hok as (-> & f & v & Ef). rewrite Hc in Ef. injection Ef as ->. eexists _, (fput f v o). cbn [fst snd f_next fs_thr fs_heap fs_ptr]. rewrite Ex, Ec. split; [reflexivity|]. cbn [ft_calls ft_done ft_pc].
    split; [done|]. split; [by rewrite list_lookup_alter, Ho|]. split; [|split; [done|]].
    + intros g. rewrite (pending_S _ _ _ Hc). cbn [pend]. unfold fput. destruct (decide (g = f)); [done|apply Hp].
    + split; [|by eapply lookup_lt_Some]. rewrite emissions_snoc, app_nil_r, He, expected_S, Hc. by rewrite app_nil_r.
  - destruct Hok as (-> & E). apply Hgo; [done| |done]. cbn. split; [|done]. by rewrite Er, Hp.
  - destruct Hok as (-> & E). apply Hgo; [done| |done]. cbn. split; [done|]. exists call. rewrite Hc in E. injection E as ->. split_and!; try done. lia.
  - destruct Hok as (-> & cl & E & Hn & -> & Ecp & Hlen). rewrite Hc in E. injection E as <-. destruct (all_fields !! length c) as [f|] eqn:Ef.
    + apply Hgo; [intros [= E2]; apply (f_equal length) in E2; rewrite app_length in E2; cbn in E2; lia| |done]. cbn. split; [done|]. exists call. split; [done|]. split; [done|]. split; [done|]. rewrite app_length. cbn.
      apply lookup_lt_Some in Ef as Hlt. cbn in Hlt. split; [|lia]. rewrite Nat.add_1_r, (take_S_r _ _ _ Ef), fmap_app. fold (pending (take (ft_done x) cs)). rewrite <- Ecp. cbn. by rewrite Er, Hp.
    + eexists _, fobj0. cbn [fst snd f_next fs_thr fs_heap fs_ptr]. rewrite Ex, Ec. split; [reflexivity|]. cbn [ft_calls ft_done ft_pc].
      split; [done|]. split; [by rewrite lookup_app_r, Nat.sub_diag|]. split; [|split; [done|]].
      * intros g. rewrite (pending_S _ _ _ Hc). destruct call; [by destruct (Hn f v)|done..].
      * split; [|by eapply lookup_lt_Some]. rewrite emissions_snoc, He, expected_S, Hc. apply lookup_ge_None in Ef. cbn in Ef. assert (length c = 3) as E3 by lia. rewrite E3 in Ecp. cbn [take all_fields] in Ecp.
        destruct call as [f v|b|]; [by destruct (Hn f v)| |]; by rewrite Ecp.
Qed.
Lemma one_run cs ls : one_inv cs (f_run [cs] ls).
Proof.
  induction ls as [|t ls IH] using rev_ind; [|unfold f_run in *; rewrite foldl_app; by apply one_step].
  eexists _, _. cbn. split; [done|]. split; [done|]. split; [done|]. cbn. split_and!; try done. lia.
Qed.
Lemma run_sequential cs ls : let st := f_run [cs] ls in all_made st.1 → emissions st.2 = expected cs.
Proof.
  intros st Hm. destruct (one_run cs ls) as (x & o & Ex & Ec & _ & _ & _ & He & _). fold st in Ex, He. rewrite He. assert (ft_done x = length cs) as ->; [|done]. rewrite <- Ec. apply (Hm 0). by rewrite Ex.
Qed.
