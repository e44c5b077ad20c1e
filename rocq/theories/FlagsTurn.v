(** Modifiers called in turn by several goroutines. *)
From Verif Require Import Base FlagsConc FlagsConcSpec.

Definition resting (ps : list (list fcall)) (l : fobj) (s : fst_) : Prop :=
  (∀ t x, fs_thr s !! t = Some x → ft_pc x = PNext) ∧ (∀ t, (λ x, skipn (ft_done x) (ft_calls x)) <$> fs_thr s !! t = ps !! t) ∧
  fs_ptr s < length (fs_heap s) ∧ ∀ f, f_read s (fs_ptr s) f = l f.
Lemma taken_app a b : taken (a ++ b) = taken a ++ taken b.
Proof. apply omap_app. Qed.
Lemma f_step_at s tr t x call s' a : fs_thr s !! t = Some x → ft_calls x !! ft_done x = Some call → f_thread t x call s = (s', a) →
  f_step (s, tr) t = (s', tr ++ [(t, ft_done x, a)]).
Proof. intros Hx Hc Hs. unfold f_step. by rewrite Hx, Hc, Hs. Qed.
Lemma f_block cs d call : cs !! d = Some call → ∀ t H p T tr, T !! t = Some (FThread cs d PNext) →
  ∃ tr', foldl f_step (FSt H p T, tr) (replicate (cost call) t) =
    (match call with
     | FMod f v => FSt (alter (fput f v) p H) p (<[t := FThread cs (S d) PNext]> T)
     | _ => FSt (H ++ [fobj0]) (length H) (<[t := FThread cs (S d) PNext]> T)
     end, tr ++ tr') ∧
    taken tr' = match call with
                | FMod _ _ => []
                | _ => [(t, match call with FEmit true => default fobj0 (H !! p) FTimeout | _ => None end, default fobj0 (H !! p) <$> all_fields)]
                end.
Proof.
  intros Hc t H p T tr Ht. assert (t < length T) as Hl by by eapply lookup_lt_Some.
  destruct call as [f v|[]|]; cbn [cost replicate foldl].
  all: repeat (erewrite f_step_at; [|cbn [fs_thr f_goto]; first [exact Ht|by apply list_lookup_insert; rewrite ?insert_length]|exact Hc|reflexivity]).
  all: unfold f_next, f_goto; cbn [fs_heap fs_ptr fs_thr ft_calls ft_done]; rewrite ?list_insert_insert, <- ?app_assoc; eexists; split; [reflexivity|reflexivity].
Qed.
Lemma turns_from us : ∀ ps l s tr, resting ps l s → taken (foldl f_step (s, tr) (in_turn ps us)).2 = taken tr ++ carries l (merged ps us).
Proof.
  induction us as [|t us IH]; intros ps l s tr (Hp & Hr & Hl & Hf); cbn [in_turn merged]; [by rewrite app_nil_r|].
  pose proof (Hr t) as Ht. destruct (ps !! t) as [[|c cs]|] eqn:Ep; [by apply IH| |by apply IH].
  destruct (fs_thr s !! t) as [x|] eqn:Ex; [|done]. cbn in Ht. injection Ht as Hd. pose proof (Hp t x Ex) as Hpc. destruct x as [xs d pc]. cbn in Hpc, Hd. subst pc.
  assert (xs !! d = Some c) as Hc. { pose proof (lookup_drop xs d 0) as E. rewrite Hd, Nat.add_0_r in E. by rewrite <- E. }
  assert (skipn (S d) xs = cs) as Hd'. { rewrite (drop_S xs c d Hc) in Hd. by injection Hd. }
  destruct s as [H p T]. cbn [fs_thr fs_heap fs_ptr] in *. destruct (f_block xs d c Hc t H p T tr Ex) as (tr' & E & Et). rewrite foldl_app, E.
  assert (∀ f, default fobj0 (H !! p) f = l f) as Hv by exact Hf.
  assert (∀ t' x, <[t := FThread xs (S d) PNext]> T !! t' = Some x → ft_pc x = PNext) as Hp'.
  { intros t' y. rewrite list_lookup_insert_Some. intros [(_ & <- & _)|[_ Hy]]; [done|by eapply Hp]. }
  assert (∀ t', (λ x, skipn (ft_done x) (ft_calls x)) <$> <[t := FThread xs (S d) PNext]> T !! t' = <[t := cs]> ps !! t') as Hr'.
  { intros t'. destruct (decide (t' = t)) as [->|Hn]; [|rewrite !list_lookup_insert_ne by done; apply Hr].
    rewrite !list_lookup_insert by (by eapply lookup_lt_Some). cbn. by rewrite Hd'. }
  destruct c as [f v|b|]; cbn [carries].
  - rewrite (IH _ (fput f v l)); [by rewrite taken_app, Et, app_nil_r|]. split_and!; [done|done|cbn; by rewrite alter_length|].
    intros g. unfold f_read. cbn [fs_heap fs_ptr]. destruct (lookup_lt_is_Some_2 H p Hl) as [o Ho]. rewrite list_lookup_alter. rewrite Ho in Hv |- *. cbn in *. unfold fput. case_decide; [done|apply Hv].
  - rewrite (IH _ fobj0).
    + rewrite taken_app, Et, <- app_assoc. cbn. rewrite !Hv. by destruct b.
    + split_and!; [done|done|cbn; rewrite app_length; cbn; lia|]. intros g. unfold f_read. cbn [fs_heap fs_ptr]. by rewrite list_lookup_middle.
  - rewrite (IH _ fobj0).
    + rewrite taken_app, Et, <- app_assoc. cbn. by rewrite !Hv.
    + split_and!; [done|done|cbn; rewrite app_length; cbn; lia|]. intros g. unfold f_read. cbn [fs_heap fs_ptr]. by rewrite list_lookup_middle.
Qed.
Lemma run_turns ps us : taken (f_run ps (in_turn ps us)).2 = carries fobj0 (merged ps us).
Proof.
  unfold f_run. rewrite (turns_from us ps fobj0); [done|]. unfold f_start. split_and!; cbn.
  - intros t x. rewrite list_lookup_fmap. intros (cs & _ & ->)%fmap_Some. done.
  - intros t. rewrite list_lookup_fmap. by destruct (ps !! t).
  - lia.
  - done.
Qed.
