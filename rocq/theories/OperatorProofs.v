(** Proofs about [Operator.v]. *)
From Verif Require Import Base GoTypes Operator OperatorSpec.

Local Opaque socket_reserved namespace_reserved.

Global Arguments new_operator : simpl never.
Global Arguments remote_operator : simpl never.
Global Arguments sock_operator : simpl never.
Global Arguments alloc_flags : simpl never.
Global Arguments alloc_set : simpl never.
Global Arguments op_modif : simpl never.
Global Arguments sock_emit : simpl never.

(** [h'] extends [h]: allocated cells keep their contents, except flag cells in [X]. *)
Record hext (X : nat → Prop) (h h' : heap) : Prop := {
  hext_1 : h_next h ≤ h_next h';
  hext_2 : ∀ a x, h_sets h !! a = Some x → h_sets h' !! a = Some x;
  hext_3 : ∀ a x, ¬ X a → h_flags h !! a = Some x → h_flags h' !! a = Some x }.
Record heap_ok (h : heap) : Prop := {
  heap_ok_1 : ∀ a, is_Some (h_sets h !! a) → a < h_next h;
  heap_ok_2 : ∀ a, is_Some (h_flags h !! a) → a < h_next h }.

Lemma hext_refl X h : hext X h h.
Proof. split; auto. Qed.
Lemma hext_trans X h1 h2 h3 : hext X h1 h2 → hext X h2 h3 → hext X h1 h3.
Proof. intros [A1 A2 A3] [B1 B2 B3]. split; [lia|auto|auto]. Qed.

Lemma hext_sets X h h' a x : hext X h h' → h_sets h !! a = Some x → h_sets h' !! a = Some x.
Proof. intros [_ H _]. apply H. Qed.
Lemma hext_flags X h h' a x : hext X h h' → ¬ X a → h_flags h !! a = Some x → h_flags h' !! a = Some x.
Proof. intros [_ _ H]. apply H. Qed.
Ltac hx := repeat first [assumption | eapply hext_sets; [eassumption|] | eapply hext_flags; [eassumption|tauto|]].

Lemma alloc_set_spec X h : heap_ok h →
  let a := (alloc_set X h).1 in let h' := (alloc_set X h).2 in
  heap_ok h' ∧ hext (λ _, False) h h' ∧ h_sets h' !! a = Some X ∧ h_sets h !! a = None ∧ a = h_next h ∧ h_next h' = S (h_next h) ∧ h_flags h' = h_flags h.
Proof.
  intros [H1 H2]. unfold alloc_set, alloc_flags. simpl.
  assert (h_sets h !! h_next h = None) as Hn.
  { apply eq_None_not_Some. intros H%H1. lia. }
  split_and!; try done.
  - split; simpl; intros a.
    + rewrite lookup_insert_is_Some'. intros [<-|H%H1]; simpl; lia.
    + intros H%H2. simpl. lia.
  - split; simpl; [lia| |auto]. intros a x Ha. rewrite lookup_insert_ne; [done|congruence].
  - simpl. by rewrite lookup_insert.
Qed.
Lemma alloc_flags_spec f h : heap_ok h →
  let a := (alloc_flags f h).1 in let h' := (alloc_flags f h).2 in
  heap_ok h' ∧ hext (λ _, False) h h' ∧ h_flags h' !! a = Some f ∧ h_flags h !! a = None ∧ a = h_next h ∧ h_next h' = S (h_next h) ∧ h_sets h' = h_sets h.
Proof.
  intros [H1 H2]. unfold alloc_set, alloc_flags. simpl.
  assert (h_flags h !! h_next h = None) as Hn.
  { apply eq_None_not_Some. intros H%H2. lia. }
  split_and!; try done.
  - split; simpl; intros a.
    + intros H%H1. simpl. lia.
    + rewrite lookup_insert_is_Some'. intros [<-|H%H2]; simpl; lia.
  - split; simpl; [lia|auto|]. intros a x _ Ha. rewrite lookup_insert_ne; [done|congruence].
  - simpl. by rewrite lookup_insert.
Qed.

Lemma denote_ext X h h' b t : hext X h h' → ¬ X (op_flags b) → denote h b = Some t → denote h' b = Some t.
Proof.
  intros [H1 H2 H3] Hx. unfold denote.
  destruct (h_sets h !! op_rooms b) eqn:E1; [|done].
  destruct (h_sets h !! op_except b) eqn:E2; [|done].
  destruct (h_flags h !! op_flags b) eqn:E3; [|done].
  intros [= <-]. by rewrite (H2 _ _ E1), (H2 _ _ E2), (H3 _ _ Hx E3).
Qed.

Lemma new_operator_spec ad ro eo fo h : heap_ok h →
  let b := (new_operator ad ro eo fo h).1 in let h' := (new_operator ad ro eo fo h).2 in
  heap_ok h' ∧ hext (λ _, False) h h' ∧
  op_adapter b = ad ∧
  (match ro with Some a => op_rooms b = a | None => h_sets h' !! op_rooms b = Some ∅ end) ∧
  (match eo with Some a => op_except b = a | None => h_sets h' !! op_except b = Some ∅ end) ∧
  (match fo with Some a => op_flags b = a | None => h_flags h' !! op_flags b = Some no_flags ∧ h_next h ≤ op_flags b end).
Proof.
  intros Hok. unfold new_operator.
  destruct (alloc_set_spec ∅ h Hok) as (A1&A2&A3&A4&A5&A6&A7).
  destruct (alloc_set ∅ h) as [a1 h1]; cbn [fst snd] in *.
  destruct (alloc_set_spec ∅ h1 A1) as (B1&B2&B3&B4&B5&B6&B7).
  destruct (alloc_set ∅ h1) as [a2 h2]; cbn [fst snd] in *.
  destruct (alloc_flags_spec no_flags h2 B1) as (C1&C2&C3&C4&C5&C6&C7).
  destruct (alloc_flags no_flags h2) as [a3 h3]; cbn [fst snd] in *.
  split_and!; try done.
  - eapply hext_trans; [done|]. eapply hext_trans; done.
  - destruct ro; simpl; [done|]. rewrite C7. hx.
  - destruct eo; simpl; [done|]. by rewrite C7.
  - destruct fo; simpl; [done|]. split; [done|]. subst. lia.
Qed.

(** One derivation step. *)
Definition modif_target (m : modif) (t : target) : target :=
  Target (t_adapter t) (t_rooms t ∪ list_to_set (targets_of m)) (t_except t ∪ list_to_set (excludes_of m)) (modif_flags m (t_flags t)).

Lemma denote_inv h b t : denote h b = Some t →
  h_sets h !! op_rooms b = Some (t_rooms t) ∧ h_sets h !! op_except b = Some (t_except t) ∧
  h_flags h !! op_flags b = Some (t_flags t) ∧ op_adapter b = t_adapter t.
Proof.
  unfold denote. destruct (h_sets h !! op_rooms b); [|done]. destruct (h_sets h !! op_except b); [|done].
  destruct (h_flags h !! op_flags b); [|done]. by intros [= <-].
Qed.
Lemma denote_intro h b t :
  h_sets h !! op_rooms b = Some (t_rooms t) → h_sets h !! op_except b = Some (t_except t) →
  h_flags h !! op_flags b = Some (t_flags t) → op_adapter b = t_adapter t → denote h b = Some t.
Proof. unfold denote. intros -> -> -> ->. by destruct t. Qed.

(** The flags cell of the result is the one of [b] or a fresh one. *)
Lemma op_modif_spec m b h t : heap_ok h → denote h b = Some t →
  let b' := (op_modif m b h).1 in let h' := (op_modif m b h).2 in
  heap_ok h' ∧ hext (λ _, False) h h' ∧ denote h' b' = Some (modif_target m t) ∧
  (op_flags b' = op_flags b ∨ h_next h ≤ op_flags b').
Proof.
  intros Hok Hd. apply denote_inv in Hd as (D1&D2&D3&D4).
  assert (∀ rs, get_set h (op_rooms b) ∪ rs = t_rooms t ∪ rs) as G1 by (intros; unfold get_set; by rewrite D1).
  assert (∀ rs, get_set h (op_except b) ∪ rs = t_except t ∪ rs) as G2 by (intros; unfold get_set; by rewrite D2).
  assert (get_flags h (op_flags b) = t_flags t) as G3 by (unfold get_flags; by rewrite D3).
  assert (∀ rs, let b' := (op_to rs b h).1 in let h' := (op_to rs b h).2 in
    heap_ok h' ∧ hext (λ _, False) h h' ∧ denote h' b' = Some (Target (t_adapter t) (t_rooms t ∪ list_to_set rs) (t_except t) (t_flags t)) ∧
    op_flags b' = op_flags b) as Hto.
  { intros rs. unfold op_to. rewrite G1.
    destruct (alloc_set_spec (t_rooms t ∪ list_to_set rs) h Hok) as (A1&A2&A3&A4&A5&A6&A7).
    destruct (alloc_set (t_rooms t ∪ list_to_set rs) h) as [a1 h1]; cbn [fst snd] in *.
    destruct (new_operator_spec (op_adapter b) (Some a1) (Some (op_except b)) (Some (op_flags b)) h1 A1) as (B1&B2&B3&B4&B5&B6).
    destruct (new_operator _ _ _ _ h1) as [b' h2]; cbn [fst snd] in *.
    split_and!; [done|by eapply hext_trans| |done].
    apply denote_intro; simpl.
    - rewrite B4. hx.
    - rewrite B5. hx.
    - rewrite B6. hx.
    - congruence. }
  assert (∀ f, let b' := (op_flag f b h).1 in let h' := (op_flag f b h).2 in
    heap_ok h' ∧ hext (λ _, False) h h' ∧ denote h' b' = Some (Target (t_adapter t) (t_rooms t) (t_except t) (f (t_flags t))) ∧
    h_next h ≤ op_flags b') as Hfl.
  { intros f. unfold op_flag. rewrite G3.
    destruct (alloc_flags_spec (f (t_flags t)) h Hok) as (A1&A2&A3&A4&A5&A6&A7).
    destruct (alloc_flags (f (t_flags t)) h) as [a1 h1]; cbn [fst snd] in *.
    destruct (new_operator_spec (op_adapter b) (Some (op_rooms b)) (Some (op_except b)) (Some a1) h1 A1) as (B1&B2&B3&B4&B5&B6).
    destruct (new_operator _ _ _ _ h1) as [b' h2]; cbn [fst snd] in *.
    split_and!; [done|by eapply hext_trans| |rewrite B6; lia].
    apply denote_intro; simpl.
    - rewrite B4. hx.
    - rewrite B5. hx.
    - rewrite B6. hx.
    - congruence. }
  assert (∀ X : gset room, X ∪ list_to_set [] = X) as Hnil by (intros; set_solver).
  destruct m as [rs|rs|rs|c| | |t0]; unfold op_modif, modif_target; cbn [targets_of excludes_of modif_flags]; rewrite ?Hnil.
  1,2: destruct (Hto rs) as (?&?&?&?); split_and!; auto.
  2-5: match goal with |- context [op_flag ?f _ _] => destruct (Hfl f) as (?&?&?&?) end; split_and!; auto.
  unfold op_exc. rewrite G2.
  destruct (alloc_set_spec (t_except t ∪ list_to_set rs) h Hok) as (A1&A2&A3&A4&A5&A6&A7).
  destruct (alloc_set (t_except t ∪ list_to_set rs) h) as [a1 h1]; cbn [fst snd] in *.
  destruct (new_operator_spec (op_adapter b) (Some (op_rooms b)) (Some a1) (Some (op_flags b)) h1 A1) as (B1&B2&B3&B4&B5&B6).
  destruct (new_operator _ _ _ _ h1) as [b' h2]; cbn [fst snd] in *.
  split_and!; [done|by eapply hext_trans| |by left].
  apply denote_intro; simpl.
  - rewrite B4. hx.
  - rewrite B5. hx.
  - rewrite B6. hx.
  - congruence.
Qed.

Lemma chain_target_nil t : chain_target [] t t.
Proof. unfold chain_target. simpl. split_and!; try done; set_solver. Qed.
Lemma chain_target_cons m ms t t' : chain_target ms (modif_target m t) t' → chain_target (m :: ms) t t'.
Proof.
  unfold chain_target. simpl. intros (H1&H2&H3&H4&H5&H6&H7&H8&H9&H10&H11). split_and!.
  - done.
  - intros r. rewrite H2. clear. set_solver.
  - intros r. rewrite H3. clear. set_solver.
  - rewrite H4. destruct m; simpl; try done. rewrite last_cons. change (list_omap modif bool compress_of ms) with (omap compress_of ms). by destruct (last (omap compress_of ms)).
  - rewrite H5. destruct m; simpl; try done. rewrite last_cons. change (list_omap modif N timeout_of ms) with (omap timeout_of ms). by destruct (last (omap timeout_of ms)).
  - rewrite H6. clear. destruct m; simpl; set_solver.
  - rewrite H7. clear. destruct m; simpl; set_solver.
  - rewrite H8. by destruct m.
  - rewrite H9. by destruct m.
  - rewrite H10. by destruct m.
  - rewrite H11. by destruct m.
Qed.
Lemma run_chain_spec ms b h t : heap_ok h → denote h b = Some t →
  let b' := (run_chain ms b h).1 in let h' := (run_chain ms b h).2 in
  heap_ok h' ∧ hext (λ _, False) h h' ∧ ∃ t', denote h' b' = Some t' ∧ chain_target ms t t'.
Proof.
  revert b h t. induction ms as [|m ms IH]; intros b h t Hok Hd; simpl.
  { split_and!; [done|apply hext_refl|]. exists t. split; [done|apply chain_target_nil]. }
  destruct (op_modif_spec m b h t Hok Hd) as (A1&A2&A3&_). destruct (op_modif m b h) as [b1 h1]; cbn [fst snd] in *.
  destruct (IH b1 h1 _ A1 A3) as (B1&B2&t'&B3&B4). split_and!; [done|by eapply hext_trans|].
  exists t'. split; [done|]. by apply chain_target_cons.
Qed.

(** World invariant: every operator denotes; sockets' flag cells are allocated, distinct and
    not shared with operators. *)
Definition world_ok (w : world) : Prop :=
  heap_ok (w_heap w) ∧
  (∀ i b, w_ops w !! i = Some b → is_Some (denote (w_heap w) b)) ∧
  (∀ k s, w_socks w !! k = Some s → is_Some (h_flags (w_heap w) !! os_flags s)) ∧
  (∀ k s i b, w_socks w !! k = Some s → w_ops w !! i = Some b → os_flags s ≠ op_flags b) ∧
  (∀ k s k' s', w_socks w !! k = Some s → w_socks w !! k' = Some s' → os_flags s = os_flags s' → k = k').

Lemma world0_ok : world_ok world0.
Proof.
  unfold world0. split_and!; simpl.
  - split; simpl; intros a; rewrite lookup_empty; by intros [].
  - intros i b. by rewrite lookup_nil.
  - intros k s. by rewrite lookup_empty.
  - intros k s. by rewrite lookup_empty.
  - intros k s. by rewrite lookup_empty.
Qed.

Lemma flags_lt h a : heap_ok h → is_Some (h_flags h !! a) → a < h_next h.
Proof. intros [_ H]. apply H. Qed.
Lemma denote_flags_lt h b : heap_ok h → is_Some (denote h b) → op_flags b < h_next h.
Proof. intros Hok [t Ht]. apply denote_inv in Ht as (_&_&H&_). apply flags_lt; eauto. Qed.

(** Adding an operator whose flags cell is fresh or is the one of an existing operator. *)
Lemma world_add_op w b h' :
  world_ok w → heap_ok h' → hext (λ _, False) (w_heap w) h' → is_Some (denote h' b) →
  (h_next (w_heap w) ≤ op_flags b ∨ ∃ i b0, w_ops w !! i = Some b0 ∧ op_flags b = op_flags b0) →
  world_ok (World h' (w_ops w ++ [b]) (w_socks w)).
Proof.
  intros (W1&W2&W3&W4&W5) Hok Hext Hd Hfr. split_and!; simpl.
  - done.
  - intros i b0 Hi. apply lookup_app_Some in Hi as [Hi|[_ Hi]].
    + destruct (W2 _ _ Hi) as [t Ht]. exists t. eapply denote_ext; eauto.
    + destruct (i - length (w_ops w)); simpl in Hi; simplify_eq; done.
  - intros k s Hs. destruct (W3 _ _ Hs) as [x Hx]. exists x. hx.
  - intros k s i b0 Hs Hi. apply lookup_app_Some in Hi as [Hi|[_ Hi]]; [by eapply W4|].
    destruct (i - length (w_ops w)); simpl in Hi; simplify_eq.
    destruct Hfr as [Hfr|(i0&b1&Hb&E)].
    + pose proof (flags_lt _ _ W1 (W3 _ _ Hs)). lia.
    + rewrite E. by eapply W4.
  - done.
Qed.

Lemma world_set_sock w k s s' h' :
  world_ok w → heap_ok h' → hext (λ a, a = os_flags s) (w_heap w) h' →
  w_socks w !! k = Some s →
  is_Some (h_flags h' !! os_flags s') →
  (os_flags s' = os_flags s ∨ h_next (w_heap w) ≤ os_flags s') →
  (∀ a, is_Some (h_flags (w_heap w) !! a) → is_Some (h_flags h' !! a)) →
  world_ok (World h' (w_ops w) (<[k := s']> (w_socks w))).
Proof.
  intros (W1&W2&W3&W4&W5) Hok Hext Hs Hs' Hfr Hkeep. split_and!; simpl.
  - done.
  - intros i b Hi. destruct (W2 _ _ Hi) as [t Ht]. exists t. eapply denote_ext; [done| |done].
    intros E. by apply (W4 _ _ _ _ Hs Hi).
  - intros k0 s0 H0. apply lookup_insert_Some in H0 as [[<- <-]|[Hne H0]]; [done|]. apply Hkeep. by eapply W3.
  - intros k0 s0 i b H0 Hi. apply lookup_insert_Some in H0 as [[<- <-]|[Hne H0]]; [|by eapply W4].
    destruct Hfr as [E|Hlt]; [rewrite E; by eapply W4|].
    pose proof (denote_flags_lt _ _ W1 (W2 _ _ Hi)). lia.
  - assert (∀ k0 s0, w_socks w !! k0 = Some s0 → k0 ≠ k → os_flags s' ≠ os_flags s0) as Hdist.
    { intros k0 s0 H0 Hne E. destruct Hfr as [E'|Hlt].
      - apply Hne. eapply W5; eauto. congruence.
      - pose proof (flags_lt _ _ W1 (W3 _ _ H0)). lia. }
    intros k1 s1 k2 s2 H1 H2 E.
    apply lookup_insert_Some in H1 as [[<- <-]|[Hne1 H1]]; apply lookup_insert_Some in H2 as [[<- <-]|[Hne2 H2]]; auto.
    + exfalso. by eapply Hdist.
    + exfalso. by eapply Hdist.
    + by eapply W5.
Qed.

Lemma hext_weaken X h h' : hext (λ _, False) h h' → hext X h h'.
Proof. intros [H1 H2 H3]. split; auto. Qed.
Lemma hext_keep h h' a : hext (λ _, False) h h' → is_Some (h_flags h !! a) → is_Some (h_flags h' !! a).
Proof. intros [_ _ H] [x Hx]. exists x. apply H; auto. Qed.

Lemma sock_operator_spec s h : heap_ok h →
  let b := (sock_operator s h).1.1 in let s' := (sock_operator s h).1.2 in let h' := (sock_operator s h).2 in
  heap_ok h' ∧ hext (λ _, False) h h' ∧
  denote h' b = Some (Target (os_adapter s) ∅ {[os_id s]} (get_flags h (os_flags s))) ∧
  h_flags h' !! os_flags s' = Some no_flags ∧ h_next h ≤ os_flags s' ∧ os_flags s' < op_flags b ∧
  os_id s' = os_id s ∧ os_adapter s' = os_adapter s.
Proof.
  intros Hok. unfold sock_operator.
  destruct (alloc_flags_spec no_flags h Hok) as (A1&A2&A3&A4&A5&A6&A7).
  destruct (alloc_flags no_flags h) as [a0 h0]; cbn [fst snd] in *.
  destruct (alloc_set_spec ∅ h0 A1) as (B1&B2&B3&B4&B5&B6&B7).
  destruct (alloc_set ∅ h0) as [ar h1]; cbn [fst snd] in *.
  destruct (alloc_set_spec {[os_id s]} h1 B1) as (C1&C2&C3&C4&C5&C6&C7).
  destruct (alloc_set {[os_id s]} h1) as [ae h2]; cbn [fst snd] in *.
  destruct (alloc_flags_spec (get_flags h (os_flags s)) h2 C1) as (D1&D2&D3&D4&D5&D6&D7).
  destruct (alloc_flags (get_flags h (os_flags s)) h2) as [af h3]; cbn [fst snd] in *.
  destruct (new_operator_spec (os_adapter s) (Some ar) (Some ae) (Some af) h3 D1) as (E1&E2&E3&E4&E5&E6).
  destruct (new_operator _ _ _ _ h3) as [b h4]; cbn [fst snd] in *.
  split_and!.
  - done.
  - eapply hext_trans; [exact A2|]. eapply hext_trans; [exact B2|]. eapply hext_trans; [exact C2|]. eapply hext_trans; [exact D2|exact E2].
  - apply denote_intro; simpl.
    + rewrite E4. hx.
    + rewrite E5. hx.
    + rewrite E6. hx.
    + done.
  - simpl. hx.
  - simpl. lia.
  - rewrite E6. simpl. lia.
  - done.
  - done.
Qed.

Lemma sock_emit_spec csr i ev args s h e reg s' h' : heap_ok h →
  sock_emit csr i ev args s h = Some (e, reg, s', h') →
  heap_ok h' ∧ hext (λ _, False) h h' ∧ h_flags h' !! os_flags s' = Some no_flags ∧ h_next h ≤ os_flags s' ∧
  os_id s' = os_id s ∧ os_adapter s' = os_adapter s.
Proof.
  intros Hok. unfold sock_emit. case_decide; [done|].
  destruct (alloc_flags_spec no_flags h Hok) as (A1&A2&A3&A4&A5&A6&A7).
  destruct (match last_ack (VStr ev :: args) with Some n => _ | None => _ end) as [data reg0].
  destruct (alloc_flags no_flags h) as [a0 h0]; cbn [fst snd] in *.
  intros [= <- <- <- <-]. split_and!; try done. simpl. lia.
Qed.

Lemma remote_operator_spec ad id h : heap_ok h →
  let b := (remote_operator ad id h).1 in let h' := (remote_operator ad id h).2 in
  heap_ok h' ∧ hext (λ _, False) h h' ∧
  denote h' b = Some (Target ad {[id]} ∅ (Flags false false false false false false None true)) ∧ h_next h ≤ op_flags b.
Proof.
  intros Hok. unfold remote_operator.
  destruct (alloc_set_spec {[id]} h Hok) as (B1&B2&B3&B4&B5&B6&B7).
  destruct (alloc_set {[id]} h) as [ar h1]; cbn [fst snd] in *.
  destruct (alloc_set_spec ∅ h1 B1) as (C1&C2&C3&C4&C5&C6&C7).
  destruct (alloc_set ∅ h1) as [ae h2]; cbn [fst snd] in *.
  destruct (alloc_flags_spec (Flags false false false false false false None true) h2 C1) as (D1&D2&D3&D4&D5&D6&D7).
  destruct (alloc_flags _ h2) as [af h3]; cbn [fst snd] in *.
  destruct (new_operator_spec ad (Some ar) (Some ae) (Some af) h3 D1) as (E1&E2&E3&E4&E5&E6).
  destruct (new_operator _ _ _ _ h3) as [b h4]; cbn [fst snd] in *.
  split_and!.
  - done.
  - eapply hext_trans; [exact B2|]. eapply hext_trans; [exact C2|]. eapply hext_trans; [exact D2|exact E2].
  - apply denote_intro; simpl.
    + rewrite E4. hx.
    + rewrite E5. hx.
    + rewrite E6. hx.
    + done.
  - rewrite E6. lia.
Qed.

(** Main step lemma: the invariant is kept and no existing operator changes. *)
Ltac wsimpl := cbn [fst snd w_heap w_ops w_socks os_flags].
Lemma run_call_ok c w : world_ok w →
  let w' := (run_call c w).1 in
  world_ok w' ∧ (∀ i b, w_ops w !! i = Some b → w_ops w' !! i = Some b ∧ denote (w_heap w') b = denote (w_heap w) b).
Proof.
  intros Hw. pose proof Hw as (W1&W2&W3&W4&W5).
  assert (∀ h' b, hext (λ _, False) (w_heap w) h' → ∀ i b0, w_ops w !! i = Some b0 →
    (w_ops w ++ [b]) !! i = Some b0 ∧ denote h' b0 = denote (w_heap w) b0) as Hkeep.
  { intros h' b Hext i b0 Hi. split; [by apply lookup_app_l_Some|].
    destruct (W2 _ _ Hi) as [t Ht]. rewrite Ht. eapply denote_ext; eauto. }
  destruct c as [ad|ad id|k id ad|k|k m|k csr i ev args|i m|i ev args]; unfold run_call; cbv zeta.
  - destruct (new_operator_spec ad None None None (w_heap w) W1) as (A1&A2&A3&A4&A5&[A6 A7]).
    destruct (new_operator ad None None None (w_heap w)) as [b h]; cbn [fst snd] in *.
    split; [|cbn [fst snd w_heap w_ops w_socks]; intros ???; eapply Hkeep; eassumption]. apply world_add_op; auto.
    exists (Target ad ∅ ∅ no_flags). by apply denote_intro.
  - destruct (remote_operator_spec ad id (w_heap w) W1) as (A1&A2&A3&A4).
    destruct (remote_operator ad id (w_heap w)) as [b h]; cbn [fst snd] in *.
    split; [|cbn [fst snd w_heap w_ops w_socks]; intros ???; eapply Hkeep; eassumption]. apply world_add_op; eauto.
  - destruct (w_socks w !! k) eqn:Hk; wsimpl; [done|].
    destruct (alloc_flags_spec no_flags (w_heap w) W1) as (A1&A2&A3&A4&A5&A6&A7).
    destruct (alloc_flags no_flags (w_heap w)) as [a h] eqn:Ea; cbn [fst snd] in *. simpl.
    assert (∀ k0 s0, w_socks w !! k0 = Some s0 → os_flags s0 ≠ a) as Hfresh.
    { intros k0 s0 H0 E. pose proof (flags_lt _ _ W1 (W3 _ _ H0)). lia. }
    split.
    + split_and!; wsimpl.
      * done.
      * intros i b Hi. destruct (W2 _ _ Hi) as [t Ht]. exists t. eapply denote_ext; eauto.
      * intros k0 s0 H0. apply lookup_insert_Some in H0 as [[<- <-]|[Hne H0]]; [by exists no_flags|].
        eapply hext_keep; eauto.
      * intros k0 s0 i b H0 Hi. apply lookup_insert_Some in H0 as [[<- <-]|[Hne H0]]; [|by eapply W4].
        simpl. pose proof (denote_flags_lt _ _ W1 (W2 _ _ Hi)). lia.
      * intros k1 s1 k2 s2 H1 H2 E.
        apply lookup_insert_Some in H1 as [[<- <-]|[Hne1 H1]]; apply lookup_insert_Some in H2 as [[<- <-]|[Hne2 H2]]; auto.
        -- exfalso. by eapply Hfresh.
        -- exfalso. by eapply Hfresh.
        -- by eapply W5.
    + intros i b Hi. split; [done|]. destruct (W2 _ _ Hi) as [t Ht]. rewrite Ht. eapply denote_ext; eauto.
  - destruct (w_socks w !! k) as [s|] eqn:Hk; wsimpl; [|done].
    destruct (sock_operator_spec s (w_heap w) W1) as (A1&A2&A3&A4&A5&A6&A7&A8).
    destruct (sock_operator s (w_heap w)) as [[b s'] h]; cbn [fst snd] in *.
    split; [|cbn [fst snd w_heap w_ops w_socks]; intros ???; eapply Hkeep; eassumption].
    assert (world_ok (World h (w_ops w) (<[k:=s']> (w_socks w)))) as Hw1.
    { eapply world_set_sock; eauto. - by apply hext_weaken. - intros a. by apply hext_keep. }
    destruct Hw1 as (V1&V2&V3&V4&V5). simpl in *. split_and!; wsimpl; [done| |done| |done].
    + intros i b0 Hi. apply lookup_app_Some in Hi as [Hi|[_ Hi]]; [by eapply V2|].
      destruct (i - length (w_ops w)); simpl in Hi; simplify_eq; eauto.
    + intros k0 s0 i b0 Hs Hi. apply lookup_app_Some in Hi as [Hi|[_ Hi]]; [by eapply V4|].
      destruct (i - length (w_ops w)); simpl in Hi; simplify_eq.
      apply lookup_insert_Some in Hs as [[<- <-]|[Hne Hs]]; [lia|].
      pose proof (flags_lt _ _ W1 (W3 _ _ Hs)). lia.
  - destruct (w_socks w !! k) as [s|] eqn:Hk; wsimpl; [|done].
    unfold sock_flag. set (h' := write_flags _ _ _).
    assert (hext (λ a, a = os_flags s) (w_heap w) h') as Hext.
    { split; simpl; auto. intros a x Hne. rewrite lookup_insert_ne by congruence. done. }
    assert (heap_ok h') as Hok'.
    { destruct W1 as [H1 H2]. split; simpl; [done|]. intros a. rewrite lookup_insert_is_Some'.
      intros [<-|Ha]; [|by apply H2]. apply H2. eauto. }
    split.
    + assert (World h' (w_ops w) (w_socks w) = World h' (w_ops w) (<[k:=s]> (w_socks w))) as ->.
      { f_equal. by rewrite insert_id. }
      eapply world_set_sock; eauto.
      * simpl. rewrite lookup_insert. eauto.
      * intros a Ha. simpl. rewrite lookup_insert_is_Some'. auto.
    + intros i b Hi. split; [done|]. destruct (W2 _ _ Hi) as [t Ht]. rewrite Ht. eapply denote_ext; [done| |done].
      simpl. intros E. by eapply W4.
  - destruct (w_socks w !! k) as [s|] eqn:Hk; wsimpl; [|done].
    destruct (sock_emit csr i ev args s (w_heap w)) as [[[[e reg] s'] h]|] eqn:He; wsimpl; [|clear He; split; [exact Hw|auto]].
    apply sock_emit_spec in He as (A1&A2&A3&A4&A5&A6); [|done]. split.
    + eapply world_set_sock; eauto. * by apply hext_weaken. * intros a. by apply hext_keep.
    + intros i0 b Hi. split; [done|]. destruct (W2 _ _ Hi) as [t Ht]. rewrite Ht. eapply denote_ext; eauto.
  - destruct (w_ops w !! i) as [b|] eqn:Hi; wsimpl; [|done].
    destruct (W2 _ _ Hi) as [t Ht].
    destruct (op_modif_spec m b (w_heap w) t W1 Ht) as (A1&A2&A3&A4).
    destruct (op_modif m b (w_heap w)) as [b' h]; cbn [fst snd] in *.
    split; [|cbn [fst snd w_heap w_ops w_socks]; intros ???; eapply Hkeep; eassumption]. apply world_add_op; eauto. destruct A4; eauto.
  - destruct (w_ops w !! i) as [b|] eqn:Hi; wsimpl; done.
Qed.
Lemma run_calls_ok cs w : world_ok w →
  let w' := run_calls cs w in
  world_ok w' ∧ (∀ i b, w_ops w !! i = Some b → w_ops w' !! i = Some b ∧ denote (w_heap w') b = denote (w_heap w) b).
Proof.
  revert w. induction cs as [|c cs IH]; intros w Hw; simpl; [done|].
  destruct (run_call_ok c w Hw) as [A1 A2]. destruct (IH _ A1) as [B1 B2]. split; [done|].
  intros i b Hi. destruct (A2 i b Hi) as [C1 C2]. destruct (B2 i b C1) as [D1 D2]. split; [done|congruence].
Qed.
Lemma run_calls_app cs1 cs2 w : run_calls (cs1 ++ cs2) w = run_calls cs2 (run_calls cs1 w).
Proof. unfold run_calls. apply foldl_app. Qed.

(** C07 a *)
Lemma operators_persistent cs1 cs2 i b :
  w_ops (run_calls cs1 world0) !! i = Some b →
  let w1 := run_calls cs1 world0 in let w2 := run_calls (cs1 ++ cs2) world0 in
  w_ops w2 !! i = Some b ∧ ∃ t, denote (w_heap w1) b = Some t ∧ denote (w_heap w2) b = Some t.
Proof.
  intros Hi. cbv zeta. rewrite run_calls_app.
  destruct (run_calls_ok cs1 world0 world0_ok) as [Hw _].
  destruct (run_calls_ok cs2 _ Hw) as [_ Hk]. destruct (Hk i b Hi) as [H1 H2]. split; [done|].
  destruct Hw as (_&W2&_). destruct (W2 _ _ Hi) as [t Ht]. exists t. split; congruence.
Qed.
(** C07 b *)
Lemma chain_law cs i b ms :
  w_ops (run_calls cs world0) !! i = Some b →
  let w := run_calls cs world0 in
  ∃ t t', denote (w_heap w) b = Some t ∧
    denote (run_chain ms b (w_heap w)).2 (run_chain ms b (w_heap w)).1 = Some t' ∧ chain_target ms t t'.
Proof.
  intros Hi. cbv zeta. destruct (run_calls_ok cs world0 world0_ok) as [(W1&W2&_) _].
  destruct (W2 _ _ Hi) as [t Ht]. destruct (run_chain_spec ms b _ t W1 Ht) as (_&_&t'&B3&B4). eauto.
Qed.

(** C08 *)
Lemma op_emit_reserved ev args b h : op_emit ev args b h = None ↔ ev ∈ socket_reserved.
Proof.
  unfold op_emit. case_decide as H; [split; [intros _; exact H|intros _; reflexivity]|].
  split; [|intros H1; destruct (H H1)]. destruct (last_ack _); intros E; discriminate E.
Qed.
Lemma sock_emit_reserved csr i ev args s h : sock_emit csr i ev args s h = None ↔ ev ∈ socket_reserved.
Proof.
  unfold sock_emit. case_decide as H; [split; [intros _; exact H|intros _; reflexivity]|].
  split; [|intros H1; destruct (H H1)].
  destruct (match last_ack (VStr ev :: args) with Some n => _ | None => _ end). intros E; discriminate E.
Qed.
Lemma server_side_reserved ad ev args : nsp_server_side_emit ad ev args = None ↔ ev ∈ namespace_reserved.
Proof.
  unfold nsp_server_side_emit. case_decide as H; [split; [intros _; exact H|intros _; reflexivity]|].
  split; [|intros H1; destruct (H H1)]. intros E; discriminate E.
Qed.

Lemma reserved_no_effect k i ev args w csr n : ev ∈ socket_reserved →
  run_call (CSockEmit k csr n ev args) w = (w, None) ∧ run_call (COpEmit i ev args) w = (w, None).
Proof.
  intros H. unfold run_call. split.
  - destruct (w_socks w !! k); [|reflexivity]. rewrite (proj2 (sock_emit_reserved _ _ _ _ _ _) H). reflexivity.
  - destruct (w_ops w !! i); [|reflexivity]. rewrite (proj2 (op_emit_reserved _ _ _ _) H). reflexivity.
Qed.

(** C09: the flags cell of each socket holds exactly the pending modifiers. *)
Definition cell_of (w : world) (k : nat) : flags :=
  match w_socks w !! k with Some s => get_flags (w_heap w) (os_flags s) | None => no_flags end.
Lemma get_flags_ext X h h' a : hext X h h' → ¬ X a → is_Some (h_flags h !! a) → get_flags h' a = get_flags h a.
Proof. intros [_ _ H] Hx [f Hf]. unfold get_flags. by rewrite Hf, (H a f Hx Hf). Qed.

Lemma run_call_cell c w k : world_ok w → is_Some (w_socks w !! k) →
  let w' := (run_call c w).1 in
  is_Some (w_socks w' !! k) ∧
  cell_of w' k = if consumes k c then no_flags else match pending_of k c with Some m => modif_flags m (cell_of w k) | None => cell_of w k end.
Proof.
  intros Hw [s Hs]. pose proof Hw as (W1&W2&W3&W4&W5). unfold cell_of.
  assert (∀ h', hext (λ _, False) (w_heap w) h' → get_flags h' (os_flags s) = get_flags (w_heap w) (os_flags s)) as Hext.
  { intros h' He. eapply get_flags_ext; eauto. }
  destruct c as [ad|ad id|k' id ad|k'|k' m|k' csr i ev args|i m|i ev args]; unfold run_call, consumes, pending_of; cbv zeta.
  - pose proof (new_operator_spec ad None None None (w_heap w) W1) as (A1&A2&_).
    destruct (new_operator ad None None None (w_heap w)); cbn [fst snd] in *; wsimpl. rewrite Hs. eauto.
  - pose proof (remote_operator_spec ad id (w_heap w) W1) as (A1&A2&_).
    destruct (remote_operator ad id (w_heap w)); cbn [fst snd] in *; wsimpl. rewrite Hs. eauto.
  - destruct (w_socks w !! k') eqn:E; wsimpl; [rewrite Hs; eauto|].
    pose proof (alloc_flags_spec no_flags (w_heap w) W1) as (A1&A2&_).
    destruct (alloc_flags no_flags (w_heap w)); cbn [fst snd] in *; wsimpl.
    rewrite lookup_insert_ne by congruence. rewrite Hs. eauto.
  - destruct (w_socks w !! k') as [s'|] eqn:E; wsimpl.
    + pose proof (sock_operator_spec s' (w_heap w) W1) as (A1&A2&A3&A4&_).
      destruct (sock_operator s' (w_heap w)) as [[b s1] h]; cbn [fst snd] in *; wsimpl.
      case_bool_decide as Hk; [subst k'|].
      * rewrite lookup_insert. split; [eauto|]. unfold get_flags. by rewrite A4.
      * rewrite lookup_insert_ne by done. rewrite Hs. eauto.
    + rewrite bool_decide_false by congruence. rewrite Hs. eauto.
  - destruct (decide (k' = k)) as [->|Hne].
    + rewrite Hs. simpl. rewrite Hs. split; [eauto|]. unfold sock_flag, get_flags at 1. simpl. by rewrite lookup_insert.
    + destruct (w_socks w !! k') as [s'|] eqn:E; wsimpl; rewrite Hs; [|eauto]. split; [eauto|].
      unfold sock_flag, get_flags at 1. simpl. rewrite lookup_insert_ne; [done|]. intros E'. apply Hne. eapply W5; eauto.
  - destruct (w_socks w !! k') as [s'|] eqn:E; wsimpl.
    + destruct (decide (ev ∈ socket_reserved)) as [Hr|Hr].
      * rewrite (proj2 (sock_emit_reserved _ _ _ _ _ _) Hr). simpl. rewrite Hs.
        rewrite bool_decide_false by tauto. eauto.
      * destruct (sock_emit csr i ev args s' (w_heap w)) as [[[[e reg] s1] h]|] eqn:He.
        2:{ apply sock_emit_reserved in He. destruct (Hr He). }
        apply sock_emit_spec in He as (A1&A2&A3&A4&_); [|done]. simpl.
        destruct (decide (k' = k)) as [->|].
        -- rewrite bool_decide_true by done. rewrite lookup_insert. split; [eauto|]. unfold get_flags. by rewrite A3.
        -- rewrite bool_decide_false by naive_solver. rewrite lookup_insert_ne by done. rewrite Hs. eauto.
    + rewrite bool_decide_false by naive_solver. rewrite Hs. eauto.
  - destruct (w_ops w !! i) as [b|] eqn:Hi; wsimpl; [|rewrite Hs; eauto].
    destruct (W2 _ _ Hi) as [t Ht].
    pose proof (op_modif_spec m b (w_heap w) t W1 Ht) as (A1&A2&_).
    destruct (op_modif m b (w_heap w)); cbn [fst snd] in *; wsimpl. rewrite Hs. eauto.
  - destruct (w_ops w !! i); wsimpl; rewrite Hs; eauto.
Qed.
Lemma flags_of_snoc ms m : flags_of (ms ++ [m]) = modif_flags m (flags_of ms).
Proof. unfold flags_of. by rewrite foldl_app. Qed.
Lemma run_calls_cell cs w k acc : world_ok w → is_Some (w_socks w !! k) → cell_of w k = flags_of acc →
  is_Some (w_socks (run_calls cs w) !! k) ∧ cell_of (run_calls cs w) k = flags_of (pending k cs acc).
Proof.
  revert w acc. induction cs as [|c cs IH]; intros w acc Hw Hk Hc; [done|].
  destruct (run_call_cell c w k Hw Hk) as [A1 A2]. destruct (run_call_ok c w Hw) as [B1 _].
  cbn [run_calls foldl pending]. apply IH; [done|done|]. rewrite A2.
  destruct (consumes k c); [done|]. destruct (pending_of k c); [|done]. by rewrite flags_of_snoc, Hc.
Qed.

Lemma next_emission_flags cs0 k id ad cs csr i ev args :
  w_socks (run_calls cs0 world0) !! k = None → ev ∉ socket_reserved →
  ∃ e, (run_call (CSockEmit k csr i ev args) (run_calls (cs0 ++ CSocket k id ad :: cs) world0)).2 = Some e ∧
    emission_flags e = Some (flags_of (pending k cs [])).
Proof.
  intros Hk Hev. rewrite run_calls_app. cbn [run_calls foldl].
  destruct (run_calls_ok cs0 world0 world0_ok) as [Hw0 _].
  set (w0 := run_calls cs0 world0) in *.
  destruct (run_call_ok (CSocket k id ad) w0 Hw0) as [Hw1 _].
  assert (is_Some (w_socks (run_call (CSocket k id ad) w0).1 !! k) ∧ cell_of (run_call (CSocket k id ad) w0).1 k = no_flags) as [Hk1 Hc1].
  { simpl. rewrite Hk. simpl. unfold cell_of. simpl. rewrite lookup_insert. split; [eauto|]. unfold get_flags. simpl. by rewrite lookup_insert. }
  destruct (run_calls_cell cs _ k [] Hw1 Hk1 Hc1) as [[s Hs] Hc].
  fold (run_calls cs (run_call (CSocket k id ad) w0).1).
  set (w2 := run_calls cs (run_call (CSocket k id ad) w0).1) in *.
  unfold cell_of in Hc. rewrite Hs in Hc. unfold run_call. rewrite Hs.
  unfold sock_emit. rewrite decide_False by done. rewrite Hc.
  destruct (match last_ack (VStr ev :: args) with Some n => _ | None => _ end) as [data reg]; simpl.
  eexists. split; [done|]. by destruct csr.
Qed.

