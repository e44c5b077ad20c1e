From Verif Require Import Base Attach AttachSpec.

Lemma arun_snoc h o : arun (h ++ [o]) = astep (arun h) o.
Proof. unfold arun. by rewrite foldl_app. Qed.
Lemma attaches_snoc h o : attaches (h ++ [o]) = attaches h ++ match o with AAttach x => [x] | _ => [] end.
Proof. unfold attaches. rewrite omap_app. by destruct o. Qed.
Lemma engines_snoc h o : engines (h ++ [o]) = engines h ++ match o with AAttach x => [Some x] | AHandler => if decide (engines h = []) then [None] else [] | _ => [] end.
Proof.
  unfold engines. rewrite filter_app, attaches_snoc, fmap_app.
  assert (filter (λ o, Is_true (makes o)) h = [] → attaches h = []) as Hn.
  { intros H. unfold attaches. induction h as [|x h IH]; [done|]. rewrite filter_cons in H. destruct x; cbn in *; try done; by apply IH. }
  destruct (filter (λ o, Is_true (makes o)) h) as [|a l] eqn:E.
  - rewrite (Hn eq_refl). destruct o; cbn; done.
  - assert (∀ l', (a :: l) ++ l' = a :: (l ++ l')) as Hc by done. rewrite Hc.
    assert (makes a = true) as Ha. { assert (a ∈ filter (λ o, Is_true (makes o)) h) as H by (rewrite E; apply elem_of_cons; by left). apply elem_of_list_filter in H as [H _]. by destruct (makes a). }
    assert (a ≠ AHandler → attaches h ≠ []) as Hat.
    { intros Hx Hno. assert (a ∈ h) as Hin. { assert (a ∈ filter (λ o, Is_true (makes o)) h) as H by (rewrite E; apply elem_of_cons; by left). by apply elem_of_list_filter in H as [_ H]. }
      destruct a; try done. assert (h0 ∈ attaches h) as Hq. { unfold attaches. apply elem_of_list_omap. eauto. } rewrite Hno in Hq. by apply elem_of_nil in Hq. }
    destruct a; try done; destruct o; cbn; rewrite ?app_nil_r; try done.
    specialize (Hat ltac:(done)). destruct (attaches h) as [|b l0]; [done|]. cbn. by rewrite app_nil_r.
Qed.

Definition inv (h : list aop) : Prop :=
  let s := arun h in
  eg_http <$> at_made s = engines h ∧ at_http s = last (attaches h) ∧ at_engine s = last (at_heard s) ∧
  at_eio s = match length (engines h) with 0 => None | S n => Some n end ∧
  (∀ n, Own n ∈ at_heard s ↔ n < length (engines h)) ∧ (∀ n, Foreign n ∈ at_heard s ↔ ABind n ∈ h).
Lemma made_len h : eg_http <$> at_made (arun h) = engines h → length (at_made (arun h)) = length (engines h).
Proof. intros H. by rewrite <- H, fmap_length. Qed.
Lemma inv_ok h : inv h.
Proof.
  induction h as [|o h IH] using rev_ind.
  { unfold inv. cbn. split_and!; try done; intros n; split; intros H; try lia; by apply elem_of_nil in H. }
  unfold inv in IH |- *. destruct IH as (H1 & H2 & H3 & H4 & H5 & H6). pose proof (made_len h H1) as Hl. cbv zeta.
  rewrite arun_snoc, engines_snoc, attaches_snoc. set (s := arun h) in *.
  assert (∀ n, ABind n ∈ h ++ [o] ↔ ABind n ∈ h ∨ o = ABind n) as Hb. { intros n. rewrite elem_of_app, elem_of_list_singleton. naive_solver. }
  destruct o as [x| |e| |e]; cbn [astep].
  - unfold attach, bind, make; cbn [at_http at_engine at_eio at_made at_heard at_closed at_clients at_given]. split_and!.
    + by rewrite fmap_app, H1.
    + by rewrite last_snoc.
    + by rewrite last_snoc.
    + rewrite app_length, Hl. cbn. rewrite Nat.add_1_r. done.
    + intros n. rewrite elem_of_app, elem_of_list_singleton, H5, app_length, Hl. cbn. split; [intros [?|[=]]; lia|]. intros. destruct (decide (n = length (engines h))); [right; by subst|left; lia].
    + intros n. rewrite Hb, elem_of_app, elem_of_list_singleton, H6. naive_solver.
  - unfold handler. rewrite H4. destruct (length (engines h)) as [|k] eqn:El.
    + apply nil_length_inv in El as E0. rewrite decide_True by done. rewrite Hl. unfold give, bind, make; cbn [at_http at_engine at_eio at_made at_heard at_closed at_clients at_given]. split_and!.
      * by rewrite fmap_app, H1.
      * by rewrite app_nil_r.
      * by rewrite last_snoc.
      * by rewrite Hl, E0.
      * intros n. rewrite elem_of_app, elem_of_list_singleton, H5, E0. cbn. split; [intros [?|[=]]; lia|]. intros. right. f_equal. lia.
      * intros n. rewrite Hb, elem_of_app, elem_of_list_singleton, H6. naive_solver.
    + rewrite decide_False by (intros E; by rewrite E in El). rewrite !app_nil_r. unfold give; cbn [at_http at_engine at_eio at_made at_heard at_closed at_clients at_given]. rewrite El. split_and!; try done.
      intros n. rewrite Hb, H6. naive_solver.
  - unfold bind; cbn [at_http at_engine at_eio at_made at_heard at_closed at_clients at_given]. rewrite !app_nil_r. split_and!; try done.
    + by rewrite last_snoc.
    + intros n. rewrite elem_of_app, elem_of_list_singleton, H5. naive_solver.
    + intros n. rewrite Hb, elem_of_app, elem_of_list_singleton, H6. naive_solver.
  - rewrite !app_nil_r. unfold close. destruct (at_http s) as [x|] eqn:Ex; [|destruct (at_engine s) as [[n|n]|] eqn:Ee];
      unfold close_http, close_engine; cbn [at_http at_engine at_eio at_made at_heard at_closed at_clients at_given]; split_and!; try done; try congruence.
    + rewrite <- H1, <- list_fmap_compose. apply list_fmap_ext. intros i y _. cbn. by case_decide.
    + intros m. rewrite Hb, H6. naive_solver.
    + rewrite <- H1. apply list_eq. intros i. rewrite !list_lookup_fmap. destruct (decide (i = n)) as [->|Hi]; [rewrite list_lookup_alter; by destruct (at_made s !! n)|by rewrite list_lookup_alter_ne].
    + intros m. rewrite Hb, H6. naive_solver.
    + intros m. rewrite Hb, H6. naive_solver.
    + intros m. rewrite Hb, H6. naive_solver.
  - rewrite !app_nil_r. unfold conn. destruct (is_open e s); cbn [at_http at_engine at_eio at_made at_heard at_closed at_clients at_given]; split_and!; try done; intros m; rewrite Hb, H6; naive_solver.
Qed.
Lemma engines_ok h : eg_http <$> at_made (arun h) = engines h.
Proof. apply inv_ok. Qed.
Lemma len_ok h : length (at_made (arun h)) = length (engines h).
Proof. apply made_len, engines_ok. Qed.
Lemma heard_bound h e : e ∈ at_heard (arun h) ↔ bound e h.
Proof. destruct (inv_ok h) as (_ & _ & _ & _ & H5 & H6). destruct e; [apply H5|apply H6]. Qed.

(** The registrations. *)
Lemma heard_step h o : at_heard (arun (h ++ [o])) = at_heard (arun h) ++
  match o with AAttach _ => [Own (length (engines h))] | AHandler => if decide (engines h = []) then [Own 0] else [] | ABind e => [Foreign e] | _ => [] end.
Proof.
  rewrite arun_snoc. destruct (inv_ok h) as (_ & _ & _ & H4 & _). pose proof (len_ok h) as Hl. destruct o as [x| |e| |e]; cbn [astep].
  - cbn. by rewrite Hl.
  - unfold handler. rewrite H4. destruct (engines h) as [|b l] eqn:E; [|cbn; by rewrite app_nil_r]. cbn. by rewrite Hl.
  - done.
  - rewrite app_nil_r. unfold close. destruct (at_http (arun h)); [done|]. destruct (at_engine (arun h)) as [[]|]; done.
  - rewrite app_nil_r. unfold conn. by destruct (is_open e (arun h)).
Qed.
Lemma bindings_snoc h o : ∀ n, bindings n (h ++ [o]) = bindings n h ++
  match o with AAttach _ => [Own (n + length (attaches h) + (if decide (n = 0) then match filter (λ o, Is_true (makes o)) h with AHandler :: _ => 1 | _ => 0 end else 0))]
  | AHandler => if decide (n = 0 ∧ filter (λ o, Is_true (makes o)) h = []) then [Own 0] else [] | ABind e => [Foreign e] | _ => [] end.
Proof.
  induction h as [|x h IH]; intros n.
  { destruct o; cbn; try done; repeat case_decide; try naive_solver; do 2 f_equal; lia. }
  change ((x :: h) ++ [o]) with (x :: (h ++ [o])). rewrite (filter_cons (λ o, Is_true (makes o))). destruct x; cbn [bindings makes].
  - rewrite IH. cbn [app]. f_equal. f_equal. destruct o; try done; cbn [attaches omap list_omap length].
    + do 2 f_equal. unfold attaches. cbn. repeat case_decide; try lia; cbn; try done; lia.
    + repeat case_decide; naive_solver.
  - case_decide as Hn.
    + rewrite IH. cbn [app]. f_equal. f_equal. subst n. destruct o; try done.
      * rewrite decide_False by done. rewrite decide_True by done. change (attaches (AHandler :: h)) with (attaches h). do 2 f_equal. lia.
    + rewrite IH. f_equal. destruct o; try done.
      * rewrite !decide_False by done. done.
      * cbn. repeat case_decide; naive_solver.
  - rewrite IH. cbn [app]. f_equal.
  - rewrite IH. f_equal.
  - rewrite IH. f_equal.
Qed.
Lemma engines_len h : length (engines h) = length (attaches h) + match filter (λ o, Is_true (makes o)) h with AHandler :: _ => 1 | _ => 0 end.
Proof. unfold engines. destruct (filter (λ o, Is_true (makes o)) h) as [|[] l]; cbn; rewrite ?fmap_length; lia. Qed.
Lemma engines_none h : engines h = [] ↔ filter (λ o, Is_true (makes o)) h = [].
Proof.
  induction h as [|o h IH] using rev_ind; [done|]. rewrite engines_snoc, filter_app. destruct o; cbn; rewrite ?app_nil_r; try done.
  - split; intros H; by apply app_nil in H as [_ ?].
  - case_decide as Hd; split; intros H; try (by apply app_nil in H as [_ ?]). apply app_nil in H as [H _]. done.
Qed.
Lemma heard_bindings h : at_heard (arun h) = bindings 0 h.
Proof.
  induction h as [|o h IH] using rev_ind; [done|]. rewrite heard_step, bindings_snoc, IH. f_equal. destruct o; try done.
  - rewrite decide_True by done. by rewrite engines_len.
  - assert (engines h = [] ↔ 0 = 0 ∧ filter (λ o, Is_true (makes o)) h = []) as Hi by (rewrite engines_none; naive_solver). by rewrite (decide_ext _ _ _ _ Hi).
Qed.

(** Connections. *)
Lemma own_count h n : n < length (engines h) → filter (λ x, x = Own n) (at_heard (arun h)) = [Own n].
Proof.
  induction h as [|o h IH] using rev_ind; [cbn; lia|]. intros Hn. rewrite heard_step, filter_app. rewrite engines_snoc, app_length in Hn.
  assert (n < length (engines h) ∨ length (engines h) ≤ n) as [Hl|Hl] by lia.
  - rewrite (IH Hl). destruct o; try done.
    + rewrite filter_cons_False; [done|]. intros [= E]; lia.
    + case_decide as Hd; [|done]. rewrite Hd in Hl. cbn in Hl. lia.
  - assert (filter (λ x, x = Own n) (at_heard (arun h)) = []) as ->.
    { destruct (filter (λ x, x = Own n) (at_heard (arun h))) as [|y l] eqn:E; [done|]. exfalso.
      assert (y ∈ filter (λ x, x = Own n) (at_heard (arun h))) as H by (rewrite E; apply elem_of_cons; by left).
      apply elem_of_list_filter in H as [-> H]. apply heard_bound in H. cbn in H. lia. }
    destruct o; cbn in Hn; try lia.
    + assert (n = length (engines h)) as -> by lia. by rewrite filter_cons_True.
    + case_decide as Hd; cbn in Hn; [|lia]. rewrite Hd in *. cbn in *. assert (n = 0) as -> by lia. done.
Qed.
Lemma heard_nodup h : bound_once h → NoDup (at_heard (arun h)).
Proof.
  induction h as [|o h IH] using rev_ind; [constructor|]. unfold bound_once. rewrite omap_app. intros H. apply NoDup_app in H as (H & Hd & _).
  specialize (IH H). rewrite heard_step. apply NoDup_app. split; [done|]. destruct o; cbn in *.
  - split; [|apply NoDup_singleton]. intros e He Hx. apply elem_of_list_singleton in Hx as ->. apply heard_bound in He. cbn in He. lia.
  - case_decide as Hn; [|split; [|constructor]; intros e He Hx; by apply elem_of_nil in Hx]. split; [|apply NoDup_singleton]. intros e He Hx. apply elem_of_list_singleton in Hx as ->. apply heard_bound in He. cbn in He. rewrite Hn in He. cbn in He. lia.
  - split; [|apply NoDup_singleton]. intros x He Hx. apply elem_of_list_singleton in Hx as ->. apply heard_bound in He. cbn in He.
    eapply (Hd e); [|by apply elem_of_list_singleton]. apply elem_of_list_omap. by exists (ABind e).
  - split; [|constructor]. intros x _ Hx. by apply elem_of_nil in Hx.
  - split; [|constructor]. intros x _ Hx. by apply elem_of_nil in Hx.
Qed.
Lemma filter_eq_nodup (l : list eid) e : NoDup l → filter (λ x, x = e) l = if decide (e ∈ l) then [e] else [].
Proof.
  induction 1 as [|x l Hx Hl IH]; [done|]. rewrite filter_cons, IH. destruct (decide (x = e)) as [->|Hn].
  - rewrite decide_False by done. rewrite decide_True; [done|]. apply elem_of_cons; by left.
  - apply decide_ext. rewrite elem_of_cons. naive_solver.
Qed.
Lemma conn_own h n : at_clients (arun (h ++ [AConn (Own n)])) = at_clients (arun h) ++ if is_open (Own n) (arun h) then [Own n] else [].
Proof.
  rewrite arun_snoc. cbn [astep]. unfold conn. destruct (is_open (Own n) (arun h)) eqn:E; [|by rewrite app_nil_r]. cbn [at_clients]. f_equal.
  apply own_count. rewrite <- len_ok. cbn in E. apply lookup_lt_is_Some. destruct (at_made (arun h) !! n); [eauto|done].
Qed.
Lemma conn_once h e : bound_once h → at_clients (arun (h ++ [AConn e])) = at_clients (arun h) ++ if is_open e (arun h) && bool_decide (bound e h) then [e] else [].
Proof.
  intros Hb. rewrite arun_snoc. cbn [astep]. unfold conn. destruct (is_open e (arun h)) eqn:E; [|by rewrite app_nil_r]. cbn [at_clients andb]. f_equal.
  rewrite (filter_eq_nodup _ _ (heard_nodup h Hb)). destruct (decide (bound e h)) as [H|H].
  - rewrite bool_decide_eq_true_2 by done. rewrite decide_True by by apply heard_bound. done.
  - rewrite bool_decide_eq_false_2 by done. rewrite decide_False by by rewrite heard_bound. done.
Qed.

(** ServeHandler. *)
Lemma handler_given h : at_given (arun (h ++ [AHandler])) = at_given (arun h) ++ [pred (length (engines (h ++ [AHandler])))] ∧
  length (engines (h ++ [AHandler])) = length (engines h) `max` 1.
Proof.
  destruct (inv_ok h) as (_ & _ & _ & H4 & _). pose proof (len_ok h) as Hl. rewrite arun_snoc, engines_snoc. cbn [astep]. unfold handler. rewrite H4.
  destruct (engines h) as [|b l] eqn:E; cbn [length] in *.
  - rewrite Hl. done.
  - rewrite decide_False by done. rewrite app_nil_r. cbn. split; [done|lia].
Qed.

(** Closing. *)
Lemma open_other h o e : o ≠ AClose → bound e h → is_open e (arun (h ++ [o])) = is_open e (arun h).
Proof.
  intros Ho He. rewrite arun_snoc. destruct o as [x| |y| |y]; cbn [astep]; try done.
  - destruct e as [n|n]; [|done]. cbn in *. rewrite lookup_app_l by by rewrite len_ok. done.
  - unfold handler. destruct (at_eio (arun h)); [by destruct e|]. destruct e as [n|n]; [|done]. cbn in *. rewrite lookup_app_l by by rewrite len_ok. done.
  - unfold conn. destruct (is_open y (arun h)); [|done]. by destruct e.
Qed.
Lemma open_new h x : is_open (Own (length (engines h))) (arun (h ++ [AAttach x])) = true.
Proof. rewrite arun_snoc. cbn. rewrite <- len_ok. by rewrite list_lookup_middle. Qed.
Lemma close_exact h e : is_open e (arun (h ++ [AClose])) = true ↔ is_open e (arun h) = true ∧ ¬ closes h e.
Proof.
  destruct (inv_ok h) as (H1 & H2 & H3 & _). rewrite arun_snoc. cbn [astep]. unfold close, closes. rewrite H2. destruct (last (attaches h)) as [x|].
  - destruct e as [n|n]; cbn [is_open close_http at_made at_closed].
    + rewrite list_lookup_fmap, <- H1, list_lookup_fmap. destruct (at_made (arun h) !! n) as [g|]; [|naive_solver]. cbn. case_decide as Hd; cbn.
      * rewrite Hd. naive_solver.
      * split; [|naive_solver]. intros; split; [done|]. congruence.
    + naive_solver.
  - rewrite H3, heard_bindings. destruct (last (bindings 0 h)) as [y|] eqn:E.
    + destruct (decide (y = e)) as [->|Hn].
      * destruct e as [n|n]; cbn.
        -- rewrite list_lookup_alter. destruct (at_made (arun h) !! n); cbn; naive_solver.
        -- rewrite bool_decide_eq_false_2; [naive_solver|]. intros H. apply H, elem_of_cons. by left.
      * assert (¬ Some y = Some e) as Hne by congruence. destruct y as [m|m], e as [n|n]; cbn; try naive_solver.
        -- rewrite list_lookup_alter_ne by congruence. naive_solver.
        -- rewrite !bool_decide_eq_true, elem_of_cons. naive_solver.
    + naive_solver.
Qed.
Lemma close_one h x : (∀ y, y ∈ attaches h → y = x) → (∀ e, ABind e ∉ h) → head (filter (λ o, Is_true (makes o)) h) ≠ Some AHandler ∨ attaches h = [] →
  ∀ n, is_open (Own n) (arun (h ++ [AClose])) = false.
Proof.
  intros Ha Hb Hh n. apply not_true_iff_false. rewrite close_exact. intros [Eo Hc]. apply Hc. clear Hc.
  assert (n < length (engines h)) as Hn. { rewrite <- len_ok. cbn in Eo. apply lookup_lt_is_Some. destruct (at_made (arun h) !! n); [eauto|done]. }
  unfold closes. destruct (last (attaches h)) as [z|] eqn:E.
  - assert (z = x) as ->. { apply Ha. apply last_Some in E as [l ->]. apply elem_of_app. right. by apply elem_of_list_singleton. }
    assert (engines h = Some <$> attaches h) as He.
    { unfold engines. destruct Hh as [Hh|Hh]; [|by rewrite Hh in E]. destruct (filter (λ o, Is_true (makes o)) h) as [|[] l]; try done. }
    rewrite He in Hn |- *. rewrite list_lookup_fmap. rewrite fmap_length in Hn. apply lookup_lt_is_Some in Hn as [y Hy]. rewrite Hy. cbn. do 2 f_equal. apply Ha. by eapply elem_of_list_lookup_2.
  - apply last_None in E. rewrite <- heard_bindings.
    assert (∀ e, e ∈ at_heard (arun h) → e = Own 0) as Hall.
    { intros e He. apply heard_bound in He. destruct e as [m|m]; cbn in He; [|by apply Hb in He]. rewrite engines_len, E in He. cbn in He. destruct (filter (λ o, Is_true (makes o)) h) as [|[] ?]; try lia. f_equal. lia. }
    assert (Own n ∈ at_heard (arun h)) as Hin by by apply heard_bound. rewrite (Hall _ Hin) in *.
    destruct (last (at_heard (arun h))) as [y|] eqn:El; [|apply last_None in El; rewrite El in Hin; by apply elem_of_nil in Hin].
    f_equal. apply Hall. apply last_Some in El as [l ->]. apply elem_of_app. right. by apply elem_of_list_singleton.
Qed.
Lemma close_quiet h x : (∀ y, y ∈ attaches h → y = x) → (∀ e, ABind e ∉ h) → head (filter (λ o, Is_true (makes o)) h) ≠ Some AHandler ∨ attaches h = [] →
  (∀ n, is_open (Own n) (arun (h ++ [AClose])) = false) ∧ ∀ e, at_clients (arun ((h ++ [AClose]) ++ [AConn e])) = at_clients (arun (h ++ [AClose])).
Proof.
  intros Ha Hb Hh. pose proof (close_one h x Ha Hb Hh) as Hc. split; [done|]. intros [n|n].
  - rewrite conn_own, Hc. by rewrite app_nil_r.
  - rewrite arun_snoc. cbn [astep]. unfold conn. destruct (is_open _ _); [|done]. cbn [at_clients]. etransitivity; [|apply app_nil_r]. f_equal.
    destruct (filter (λ x, x = Foreign n) (at_heard (arun (h ++ [AClose])))) as [|y l] eqn:E; [done|]. exfalso.
    assert (y ∈ filter (λ x, x = Foreign n) (at_heard (arun (h ++ [AClose])))) as H by (rewrite E; apply elem_of_cons; by left).
    apply elem_of_list_filter in H as [-> H]. apply heard_bound in H. cbn in H. apply elem_of_app in H as [H|H]; [by apply Hb in H|]. by apply elem_of_list_singleton in H.
Qed.
