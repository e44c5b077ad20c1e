From Verif Require Import Base GoTypes AnyListeners AnyListenersSpec AnyListenersProofs AnyConc AnyConcSpec.


Lemma nrun_app a b : nrun (a ++ b) = foldl nstep (nrun a) b.
Proof. unfold nrun. by rewrite foldl_app. Qed.
Lemma regs_app a b : regs (a ++ b) = regs a ++ regs b.
Proof. apply omap_app. Qed.
Lemma list_ok ls : ns_list (nrun ls) = as_listeners (arun (regs ls)).
Proof.
  induction ls as [|x ls IH] using rev_ind; [done|]. rewrite nrun_app, regs_app. cbn [foldl]. destruct x as [o|args|n]; cbn.
  - unfold arun. rewrite foldl_app. cbn. fold (arun (regs ls)). rewrite IH. destruct o as [| |[]|]; done.
  - by rewrite app_nil_r.
  - rewrite app_nil_r. destruct (ns_notes (nrun ls) !! n) as [[args [|]]|]; done.
Qed.
Lemma notes_len ls : length (ns_notes (nrun ls)) = length (filter is_begin ls).
Proof.
  induction ls as [|x ls IH] using rev_ind; [done|]. rewrite nrun_app, filter_app, app_length, filter_cons, filter_nil. cbn [foldl]. destruct x as [o|args|n]; cbn.
  - rewrite decide_False, IH by (intros []). cbn. lia.
  - rewrite decide_True, app_length, IH by done. done.
  - rewrite decide_False, <- IH by (intros []). destruct (ns_notes (nrun ls) !! n) as [[args [|]]|]; cbn; rewrite ?insert_length; lia.
Qed.
Lemma called_snoc n s e l : called n (NState l (ns_notes s) (ns_log s ++ [e])) = called n s ++ if decide (e.1 = n) then [e.2] else [].
Proof. unfold called. cbn. rewrite omap_app. cbn. by case_decide. Qed.
Lemma none_before ls n : length (ns_notes (nrun ls)) ≤ n → called n (nrun ls) = [].
Proof.
  induction ls as [|x ls IH] using rev_ind; [done|]. rewrite nrun_app. cbn [foldl]. destruct x as [o|args|m]; cbn.
  - exact IH.
  - rewrite app_length. cbn. intros H. apply IH. lia.
  - destruct (ns_notes (nrun ls) !! m) as [[args [|l r]]|] eqn:E; [exact IH| |exact IH]. cbn. rewrite insert_length. intros H. specialize (IH H). unfold called in *. cbn. rewrite omap_app, IH. cbn.
    rewrite decide_False; [done|]. apply lookup_lt_Some in E. lia.
Qed.
Lemma goes_on n args l post : ∀ s k, ns_notes s !! n = Some (Note args (skipn k l)) → called n s = take k ((λ x, (x, args)) <$> l) → k ≤ length l →
  called n (foldl nstep s post) = take (k + turns n post) ((λ x, (x, args)) <$> l) ∧
  ∃ m, m ≤ length l ∧ ns_notes (foldl nstep s post) !! n = Some (Note args (skipn m l)).
Proof.
  induction post as [|x post IH]; intros s k Hn Hc Hk; cbn [foldl].
  { unfold turns. cbn. rewrite Nat.add_0_r. eauto. }
  assert (∀ y, (match y with NCall m => m ≠ n | _ => True end) → turns n (y :: post) = turns n post) as Ht.
  { intros y Hy. unfold turns. rewrite filter_cons_False; [done|]. destruct y; cbn; tauto. }
  destruct x as [o|args'|m].
  - rewrite Ht by done. by apply IH.
  - rewrite Ht by done. apply IH; [|done|done]. cbn. rewrite lookup_app_l by by eapply lookup_lt_Some. done.
  - destruct (decide (m = n)) as [->|Hmn].
    + assert (turns n (NCall n :: post) = S (turns n post)) as -> by (unfold turns; by rewrite filter_cons_True).
      cbn [nstep]. rewrite Hn. destruct (skipn k l) as [|y r] eqn:Ed.
      * assert (length l ≤ k) as Hl. { apply (f_equal length) in Ed. rewrite drop_length in Ed. cbn in Ed. lia. }
        destruct (IH s k) as [H1 H2]; [by rewrite Hn, Ed|done|done|]. split; [|done]. rewrite H1. rewrite !take_ge by (rewrite fmap_length; lia). done.
      * assert (l !! k = Some y) as Hy. { pose proof (lookup_drop l k 0) as E. rewrite Ed, Nat.add_0_r in E. by rewrite <- E. }
        assert (skipn (S k) l = r) as Hr. { rewrite (drop_S l y k Hy) in Ed. by injection Ed. }
        replace (k + S (turns n post)) with (S k + turns n post) by lia. apply IH.
        -- cbn. rewrite list_lookup_insert by by eapply lookup_lt_Some. by rewrite Hr.
        -- unfold called in *. cbn. rewrite omap_app, Hc. cbn. rewrite decide_True by done.
           erewrite take_S_r; [done|]. rewrite list_lookup_fmap, Hy. done.
        -- apply lookup_lt_Some in Hy. lia.
    + rewrite Ht by done. cbn [nstep]. destruct (ns_notes s !! m) as [[args' [|y r]]|]; [by apply IH| |by apply IH]. apply IH; [| |done].
      * cbn. by rewrite list_lookup_insert_ne.
      * unfold called in *. cbn. rewrite omap_app. cbn. rewrite decide_False by done. by rewrite app_nil_r.
Qed.
Lemma exact_calls ls n pre args post : begins ls n pre args post →
  called n (nrun ls) = take (turns n post) ((λ l, (l, args)) <$> as_listeners (arun (regs pre))).
Proof.
  intros [-> Hn]. rewrite <- notes_len in Hn. rewrite nrun_app. cbn [foldl].
  destruct (goes_on n args (ns_list (nrun pre)) post (nstep (nrun pre) (NBegin args)) 0) as [H _].
  - cbn. rewrite <- Hn. by rewrite list_lookup_middle.
  - cbn. unfold called. cbn. change (called n (nrun pre) = []). apply none_before. lia.
  - lia.
  - cbn [plus] in H. by rewrite <- list_ok.
Qed.
Lemma no_other ls n : (∀ pre args post, ¬ begins ls n pre args post) → called n (nrun ls) = [].
Proof.
  intros H. apply none_before. rewrite notes_len. apply Nat.nlt_ge. intros Hlt.
  induction ls as [|x ls IH] using rev_ind; [cbn in Hlt; lia|].
  rewrite filter_app, app_length, filter_cons, filter_nil in Hlt. destruct (decide (n < length (filter is_begin ls))) as [Hl|Hl].
  - apply IH; [|done]. intros pre args post [-> Hn]. apply (H pre args (post ++ [x])). split; [|done]. by rewrite <- app_assoc.
  - destruct x as [o|args|m]; [rewrite decide_False in Hlt by (intros []); cbn in Hlt; lia| |rewrite decide_False in Hlt by (intros []); cbn in Hlt; lia]. rewrite decide_True in Hlt by done. cbn in Hlt. apply (H ls args []). split; [done|]. lia.
Qed.

(** Who is in the copy. *)
Lemma reg_in l o X : l ∈ X → ¬ removes o → l ∈ as_listeners (astep (AState X []) o).
Proof. intros Hl Ho. destruct o; cbn in *; try done; [apply elem_of_app; by left|apply elem_of_cons; by right]. Qed.
Lemma arun_list h o : as_listeners (arun (h ++ [o])) = as_listeners (astep (AState (as_listeners (arun h)) []) o).
Proof. unfold arun. rewrite foldl_app. cbn. destruct o as [| |[]|]; done. Qed.
Lemma kept a o b l : adds l o → Forall (λ o, ¬ removes o) b → l ∈ as_listeners (arun (a ++ o :: b)).
Proof.
  intros Ho Hb. induction b as [|x b IH] using rev_ind.
  - change (a ++ [o]) with (a ++ [o]). rewrite arun_list. destruct Ho as [->| ->]; cbn; [apply elem_of_app; right; by apply elem_of_list_singleton|apply elem_of_cons; by left].
  - apply Forall_app in Hb as [Hb Hx]. apply Forall_inv in Hx. rewrite app_comm_cons, app_assoc, arun_list. apply reg_in; [by apply IH|done].
Qed.
Lemma splice_in {A} (p : A → bool) (l : list A) x : x ∈ splice_first p l → x ∈ l.
Proof. induction l as [|y l IH]; [done|]. cbn. destruct (p y); [intros; by apply elem_of_cons; right|]. rewrite !elem_of_cons. naive_solver. Qed.
Lemma came h l : l ∈ as_listeners (arun h) → ∃ a o b, h = a ++ o :: b ∧ adds l o ∧ AOff None ∉ b.
Proof.
  induction h as [|x h IH] using rev_ind; [by intros H%elem_of_nil|]. rewrite arun_list. intros H.
  assert (l ∈ as_listeners (arun h) ∧ x ≠ AOff None ∨ adds l x) as [[Hin Hx]|Ha].
  { destruct x as [y|y|[y|]|]; cbn in H.
    - apply elem_of_app in H as [H|H]; [by left|]. apply elem_of_list_singleton in H as ->. right. by left.
    - apply elem_of_cons in H as [->|H]; [right; by right|by left].
    - left. split; [by eapply splice_in|done].
    - by apply elem_of_nil in H.
    - by left. }
  - destruct (IH Hin) as (a & o & b & -> & Ho & Hb). exists a, o, (b ++ [x]). split; [by rewrite <- app_assoc|]. split; [done|]. intros [?|Hq%elem_of_list_singleton]%elem_of_app; congruence.
  - exists h, x, []. split; [done|]. split; [done|]. apply not_elem_of_nil.
Qed.
Lemma done_all ls n pre args post : begins ls n pre args post → length (as_listeners (arun (regs pre))) ≤ turns n post →
  called n (nrun ls) = (λ l, (l, args)) <$> as_listeners (arun (regs pre)).
Proof. intros Hb Hl. rewrite (exact_calls _ _ _ _ _ Hb). apply take_ge. by rewrite fmap_length. Qed.
Lemma is_called ls n pre args post l a o b : begins ls n pre args post → length (as_listeners (arun (regs pre))) ≤ turns n post →
  regs pre = a ++ o :: b → adds l o → Forall (λ o, ¬ removes o) b → (l, args) ∈ called n (nrun ls).
Proof. intros Hb Hl Hr Ho Hn. rewrite (done_all _ _ _ _ _ Hb Hl). apply elem_of_list_fmap. exists l. split; [done|]. rewrite Hr. by apply kept. Qed.
Lemma was_added ls n pre args post l args' : begins ls n pre args post → (l, args') ∈ called n (nrun ls) →
  args' = args ∧ ∃ a o b, regs pre = a ++ o :: b ∧ adds l o ∧ AOff None ∉ b.
Proof.
  intros Hb Hl. rewrite (exact_calls _ _ _ _ _ Hb) in Hl. apply elem_of_take in Hl as (i & Hi & _). apply elem_of_list_lookup_2 in Hi.
  apply elem_of_list_fmap in Hi as (l' & [= <- <-] & Hi). split; [done|]. by apply came.
Qed.
Lemma calls_in_order ls n pre args post : begins ls n pre args post → codes_distinct (regs pre) →
  ∃ is ks, in_order (regs pre) is ∧ Forall2 (registered (regs pre)) is ks ∧ called n (nrun ls) = take (turns n post) ((λ l, (l, args)) <$> ks).
Proof. intros Hb Hc. destruct (listeners_called (regs pre) args Hc) as (is & ks & H1 & H2 & H3 & _). exists is, ks. split; [done|]. split; [done|]. rewrite <- H3. by apply exact_calls. Qed.

(** In turn. *)
Lemma in_one_go n args r k : ∀ s, ns_notes s !! n = Some (Note args r) → length r ≤ k →
  ns_list (foldl nstep s (replicate k (NCall n))) = ns_list s ∧ length (ns_notes (foldl nstep s (replicate k (NCall n)))) = length (ns_notes s) ∧
  ns_log (foldl nstep s (replicate k (NCall n))) = ns_log s ++ ((λ l, (n, (l, args))) <$> r).
Proof.
  revert r. induction k as [|k IH]; intros r s Hs Hk; cbn [replicate foldl].
  { destruct r; [|cbn in Hk; lia]. by rewrite app_nil_r. }
  destruct r as [|l r].
  - assert (nstep s (NCall n) = s) as -> by (cbn; by rewrite Hs). apply IH; [done|cbn; lia].
  - cbn [nstep]. rewrite Hs. destruct (IH r (NState (ns_list s) (<[n:=Note args r]> (ns_notes s)) (ns_log s ++ [(n, (l, args))]))) as (H1 & H2 & H3).
    + cbn. apply list_lookup_insert. by eapply lookup_lt_Some.
    + cbn in Hk. lia.
    + rewrite H1, H2, H3. cbn [ns_list ns_notes ns_log fmap list_fmap]. rewrite insert_length, <- app_assoc. done.
Qed.
Lemma turn_agrees h ls : in_turn h ls → ns_list (nrun ls) = as_listeners (arun h) ∧ length (ns_notes (nrun ls)) = events h ∧ (ns_log (nrun ls)).*2 = as_called (arun h).
Proof.
  assert (∀ h o, arun (h ++ [o]) = astep (arun h) o) as Ha by (intros; unfold arun; by rewrite foldl_app).
  assert (∀ h o, events (h ++ [o]) = events h + match o with AEvent _ => 1 | _ => 0 end) as He by (intros ? []; unfold events; rewrite omap_app, app_length; cbn; lia).
  induction 1 as [|h ls o _ (H1 & H2 & H3) Ho|h ls args k _ (H1 & H2 & H3) Hk]; [done| |].
  - rewrite nrun_app, Ha, He. cbn [foldl nstep ns_list ns_notes ns_log]. rewrite H1, H2, H3. destruct o as [| |[]|args]; cbn; try (split_and!; [done|lia|done]). by destruct (Ho args).
  - rewrite nrun_app, Ha, He. cbn [foldl]. destruct (in_one_go (events h) args (ns_list (nrun ls)) k (nstep (nrun ls) (NBegin args))) as (J1 & J2 & J3).
    + cbn. rewrite <- H2. by rewrite list_lookup_middle.
    + by rewrite H1.
    + rewrite J1, J2, J3. cbn. rewrite app_length, H2, fmap_app, H3, H1, <- list_fmap_compose. done.
Qed.
Lemma turn_called h ls : in_turn h ls → (ns_log (nrun ls)).*2 = as_called (arun h).
Proof. apply turn_agrees. Qed.
