(** Consequences of [OperatorProofs.v] used by the property statements. *)
From Verif Require Import Base GoTypes Rooms RoomsSpec Adapter AdapterSpec AdapterProofs Operator OperatorSpec OperatorProofs.

Local Opaque socket_reserved namespace_reserved.

Lemma flags_of_law ms : flags_law ms (flags_of ms).
Proof.
  induction ms as [|m ms IH] using rev_ind.
  { unfold flags_law. simpl. split_and!; try done; split; (done || set_solver). }
  rewrite flags_of_snoc. destruct IH as (H4&H5&H6&H7&H8&H9&H10&H11). unfold flags_law.
  rewrite !omap_app. cbn [omap list_omap].
  split_and!; [destruct m; simpl; rewrite ?app_nil_r, ?last_snoc; done| destruct m; simpl; rewrite ?app_nil_r, ?last_snoc; done|..].
  - rewrite elem_of_app, elem_of_list_singleton. destruct m; simpl; naive_solver.
  - rewrite elem_of_app, elem_of_list_singleton. destruct m; simpl; naive_solver.
  - by destruct m.
  - by destruct m.
  - by destruct m.
  - by destruct m.
Qed.

(** C09 *)
Lemma socket_modifiers_next_emission cs0 k id ad cs csr i ev args :
  w_socks (run_calls cs0 world0) !! k = None → ev ∉ socket_reserved →
  ∃ e f, (run_call (CSockEmit k csr i ev args) (run_calls (cs0 ++ CSocket k id ad :: cs) world0)).2 = Some e ∧
    emission_flags e = Some f ∧ flags_law (pending k cs []) f.
Proof.
  intros H1 H2. destruct (next_emission_flags cs0 k id ad cs csr i ev args H1 H2) as (e&E1&E2). clear H2.
  exists e, (flags_of (pending k cs [])). split_and!; [done|done|]. apply flags_of_law.
Qed.

Lemma socket_created cs0 k id ad cs :
  w_socks (run_calls cs0 world0) !! k = None →
  let w := run_calls (cs0 ++ CSocket k id ad :: cs) world0 in
  world_ok w ∧ ∃ s, w_socks w !! k = Some s ∧ get_flags (w_heap w) (os_flags s) = flags_of (pending k cs []).
Proof.
  intros Hk. cbv zeta. rewrite run_calls_app. cbn [run_calls foldl].
  destruct (run_calls_ok cs0 world0 world0_ok) as [Hw0 _].
  set (w0 := run_calls cs0 world0) in *.
  destruct (run_call_ok (CSocket k id ad) w0 Hw0) as [Hw1 _].
  assert (is_Some (w_socks (run_call (CSocket k id ad) w0).1 !! k) ∧ cell_of (run_call (CSocket k id ad) w0).1 k = no_flags) as [Hk1 Hc1].
  { simpl. rewrite Hk. simpl. unfold cell_of. simpl. rewrite lookup_insert. split; [eauto|]. unfold get_flags. simpl. by rewrite lookup_insert. }
  destruct (run_calls_cell cs _ k [] Hw1 Hk1 Hc1) as [[s Hs] Hc].
  destruct (run_calls_ok cs _ Hw1) as [Hw2 _].
  fold (run_calls cs (run_call (CSocket k id ad) w0).1). split; [done|].
  exists s. split; [done|]. unfold cell_of in Hc. by rewrite Hs in Hc.
Qed.

Lemma socket_modifiers_next_operator cs0 k id ad cs :
  w_socks (run_calls cs0 world0) !! k = None →
  let w := run_calls (cs0 ++ CSocket k id ad :: cs) world0 in
  let w' := (run_call (CFromSocket k) w).1 in
  ∃ b t, w_ops w' = w_ops w ++ [b] ∧ denote (w_heap w') b = Some t ∧ flags_law (pending k cs []) (t_flags t).
Proof.
  intros Hk. cbv zeta. destruct (socket_created cs0 k id ad cs Hk) as [Hw (s&Hs&Hf)].
  set (w := run_calls (cs0 ++ CSocket k id ad :: cs) world0) in *.
  unfold run_call. rewrite Hs. destruct Hw as (W1&_).
  destruct (sock_operator_spec s (w_heap w) W1) as (A1&A2&A3&_).
  destruct (sock_operator s (w_heap w)) as [[b s'] h]; cbn [fst snd] in *. wsimpl.
  eexists b, _. split_and!; [done|exact A3|]. simpl. rewrite Hf. apply flags_of_law.
Qed.

(** C06/C07: what an accepted emission through an operator hands to the adapter. *)
Lemma op_emit_denote ev args b h t : denote h b = Some t → ev ∉ socket_reserved →
  ∃ e, op_emit ev args b h = Some e ∧ emission_target e = Some t.
Proof.
  intros Hd He. apply denote_inv in Hd as (D1&D2&D3&D4). unfold op_emit. rewrite decide_False by exact He. clear He.
  unfold get_set, get_flags. rewrite D1, D2, D3, D4. simpl. destruct t.
  destruct (last_ack (VStr ev :: args)); eexists; split; done.
Qed.

Lemma socket_chain_target cs k s ms ev args :
  w_socks (run_calls cs world0) !! k = Some s → ev ∉ socket_reserved →
  ∃ b e t, w_ops (run_calls (cs ++ [CFromSocket k]) world0) = w_ops (run_calls cs world0) ++ [b] ∧
    (let '(b', h') := run_chain ms b (w_heap (run_calls (cs ++ [CFromSocket k]) world0)) in op_emit ev args b' h') = Some e ∧
    emission_target e = Some t ∧ t_adapter t = os_adapter s ∧
    (∀ r, r ∈ t_rooms t ↔ ∃ m, m ∈ ms ∧ r ∈ targets_of m) ∧
    (∀ r, r ∈ t_except t ↔ r = os_id s ∨ ∃ m, m ∈ ms ∧ r ∈ excludes_of m).
Proof.
  intros Hs He. rewrite run_calls_app.
  destruct (run_calls_ok cs world0 world0_ok) as [Hw _]. set (w := run_calls cs world0) in *.
  cbn [run_calls foldl]. unfold run_call. rewrite Hs. destruct Hw as (W1&_).
  destruct (sock_operator_spec s (w_heap w) W1) as (A1&A2&A3&_).
  destruct (sock_operator s (w_heap w)) as [[b s'] h]; cbn [fst snd] in *. wsimpl.
  destruct (run_chain_spec ms b h _ A1 A3) as (B1&B2&t&B3&B4).
  destruct (run_chain ms b h) as [b' h'] eqn:Er; cbn [fst snd] in *.
  destruct (op_emit_denote ev args b' h' t B3 He) as (e&E1&E2).
  exists b, e, t. destruct B4 as (C1&C2&C3&_). simpl in *. clear He. split; [reflexivity|]. split; [rewrite Er; exact E1|]. split; [exact E2|]. split; [exact C1|]. split.
  - intros r. rewrite C2. clear. set_solver.
  - intros r. rewrite C3. clear. set_solver.
Qed.

Lemma sender_exclusion {P} cs k s ms ev args (n : nspace P) (p : P) (o : orders) :
  w_socks (run_calls cs world0) !! k = Some s → ev ∉ socket_reserved →
  orders_ok o → ns_wf n →
  ∃ b e opts new, w_ops (run_calls (cs ++ [CFromSocket k]) world0) = w_ops (run_calls cs world0) ++ [b] ∧
    (let '(b', h') := run_chain ms b (w_heap (run_calls (cs ++ [CFromSocket k]) world0)) in op_emit ev args b' h') = Some e ∧
    emission_opts e = Some opts ∧
    ns_written (broadcast p o (Some opts) n) = ns_written n ++ new ∧
    (in_room n (os_id s) (os_id s) → ¬ ∃ q, (os_id s, q) ∈ new) ∧
    (∀ id, (id, p) ∈ new ↔ listed n id ∧
       ((∀ m, m ∈ ms → targets_of m = []) ∨ ∃ m r, m ∈ ms ∧ r ∈ targets_of m ∧ in_room n id r) ∧
       ¬ in_room n id (os_id s) ∧ ∀ m r, m ∈ ms → r ∈ excludes_of m → ¬ in_room n id r).
Proof.
  intros Hs He Ho Hwf. destruct (socket_chain_target cs k s ms ev args Hs He) as (b&e&t&H1&H2&H3&H4&H5&H6). clear He.
  assert (∃ opts, emission_opts e = Some opts ∧ bo_rooms opts = Some (t_rooms t) ∧ bo_except opts = Some (t_except t)) as (opts&O1&O2&O3).
  { destruct e as [? ? oo|? ? oo ?| |]; simpl in H3; try done; exists oo; destruct oo as [[?|] [?|] [?|]]; simpl in *; simplify_eq; done. }
  destruct (broadcast_spec p o (Some opts) n Ho Hwf) as (l&L1&L2&L3).
  exists b, e, opts, ((λ id, (id, p)) <$> l). split_and!; [done|done|done|by rewrite L3|..].
  - intros Hin [q Hq]. apply elem_of_list_fmap in Hq as (id&[= <- _]&Hid).
    apply L2 in Hid as (_&_&Hne). apply Hne. exists (os_id s). split; [|done].
    unfold opt_except. simpl. rewrite O3. simpl. apply H6. by left.
  - intros id. assert ((id, p) ∈ ((λ id, (id, p)) <$> l) ↔ id ∈ l) as ->.
    { rewrite elem_of_list_fmap. split; [intros (?&[= ->]&?); done|]. eauto. }
    rewrite L2. unfold matches, opt_rooms, opt_except. simpl. rewrite O2, O3. simpl.
    split.
    + intros (M1&M2&M3). split_and!; [done|..].
      * destruct M2 as [M2|(r&M2&M2')].
        -- left. intros m Hm. destruct (targets_of m) as [|r l'] eqn:E; [done|].
           assert (r ∈ t_rooms t) as Hr by (apply H5; exists m; rewrite E; split; [exact Hm|left]). clear -M2 Hr; set_solver.
        -- right. apply H5 in M2 as (m&?&?). eauto.
      * intros Hin. apply M3. exists (os_id s). split; [apply H6; by left|done].
      * intros m r Hm Hr Hin. apply M3. exists r. split; [apply H6; right; eauto|done].
    + intros (M1&M2&M3&M4). split_and!; [done|..].
      * destruct M2 as [M2|(m&r&M2&M2'&M2'')].
        -- left. apply set_eq. intros r. rewrite H5. split; [|clear; set_solver]. intros (m&Hm&Hr). rewrite (M2 m Hm) in Hr. clear -Hr; set_solver.
        -- right. exists r. split; [apply H5; eauto|done].
      * intros (r&Hr&Hin). apply H6 in Hr as [->|(m&?&?)]; [done|]. by eapply M4.
Qed.

Lemma operator_emits_target cs i b t ev args :
  w_ops (run_calls cs world0) !! i = Some b → denote (w_heap (run_calls cs world0)) b = Some t → ev ∉ socket_reserved →
  ∃ e, (run_call (COpEmit i ev args) (run_calls cs world0)).2 = Some e ∧ emission_target e = Some t.
Proof.
  intros Hi Ht He. unfold run_call. rewrite Hi. wsimpl. apply op_emit_denote; assumption.
Qed.

Lemma chain_target_permutation ms ms' t t1 t2 : ms ≡ₚ ms' → chain_target ms t t1 → chain_target ms' t t2 →
  last (omap compress_of ms) = last (omap compress_of ms') → last (omap timeout_of ms) = last (omap timeout_of ms') →
  t1 = t2.
Proof.
  intros Hp (A1&A2&A3&A4&A5&A6&A7&A8&A9&A10&A11) (B1&B2&B3&B4&B5&B6&B7&B8&B9&B10&B11) Ec Et.
  assert (t_rooms t1 = t_rooms t2).
  { apply set_eq. intros r. rewrite A2, B2. setoid_rewrite Hp. done. }
  assert (t_except t1 = t_except t2).
  { apply set_eq. intros r. rewrite A3, B3. setoid_rewrite Hp. done. }
  assert (t_flags t1 = t_flags t2).
  { assert (∀ x y : bool, (x = true ↔ y = true) → x = y) as Hb by (intros [] []; naive_solver).
    assert (fl_volatile (t_flags t1) = fl_volatile (t_flags t2)) by (apply Hb; rewrite A6, B6, Hp; done).
    assert (fl_local (t_flags t1) = fl_local (t_flags t2)) by (apply Hb; rewrite A7, B7, Hp; done).
    rewrite <- Ec in B4. rewrite <- Et in B5.
    destruct (t_flags t1), (t_flags t2); simpl in *. congruence. }
  destruct t1, t2; simpl in *. congruence.
Qed.

Lemma chain_permuted cs i b ms ms' : w_ops (run_calls cs world0) !! i = Some b → ms ≡ₚ ms' →
  last (omap compress_of ms) = last (omap compress_of ms') → last (omap timeout_of ms) = last (omap timeout_of ms') →
  let h := w_heap (run_calls cs world0) in
  ∃ t, denote (run_chain ms b h).2 (run_chain ms b h).1 = Some t ∧ denote (run_chain ms' b h).2 (run_chain ms' b h).1 = Some t.
Proof.
  intros Hb Hp Hc Ht. destruct (chain_law cs i b ms Hb) as (t & t1 & E & E1 & H1). destruct (chain_law cs i b ms' Hb) as (t' & t2 & E' & E2 & H2).
  assert (t' = t) as -> by congruence. exists t1. split; [done|]. by rewrite E2, (chain_target_permutation ms ms' t t1 t2).
Qed.
Lemma last_cons_app {A} (x : A) l y : last (x :: l ++ [y]) = Some y.
Proof. change (x :: l ++ [y]) with ((x :: l) ++ [y]). apply last_snoc. Qed.
Lemma next_emission_ack cs0 k id ad cs csr i ev args n :
  w_socks (run_calls cs0 world0) !! k = None → ev ∉ socket_reserved →
  let w := run_calls (cs0 ++ CSocket k id ad :: cs) world0 in
  ∃ s e s' h', w_socks w !! k = Some s ∧
    sock_emit csr i ev (args ++ [VAck n]) s (w_heap w) = Some (e, Some (i, n, last (omap timeout_of (pending k cs []))), s', h').
Proof.
  intros Hk Hev w. destruct (socket_created cs0 k id ad cs Hk) as [_ (s & Hs & Hf)]. exists s.
  unfold sock_emit. rewrite decide_False by done. fold w in Hf. rewrite Hf. unfold last_ack. rewrite last_cons_app.
  destruct (flags_of_law (pending k cs [])) as (_ & Ht & _). rewrite Ht.
  eexists _, _, _. split; [exact Hs|reflexivity].
Qed.
