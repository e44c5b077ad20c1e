(** Proofs about the table of namespaces under concurrency. *)
From Verif Require Import Base NspConc NspConcSpec.

Definition nwith (t : nthread) (pc : npc) : nthread := NThread (nt_name t) (nt_client t) (nt_fn t) (nt_rx t) pc.

#[global] Instance npc_eq_dec : EqDecision npc.
Proof. solve_decision. Defined.

(** Steps that change nothing but the program counter. *)
Definition nlocal (cl : bool) (s : nstate) (t : nthread) (pc' : npc) : Prop :=
  match pc' with
  | POf => nt_pc t = PStart ∨ (∃ p, nt_pc t = PReload p) ∨ ∃ o, nt_pc t = PEmit o false
  | PCheck => nt_pc t = PStart ∧ is_Some (nt_client t) ∧ n_table s !! nt_name t = None
  | PGot o => ((nt_pc t = PStart ∨ nt_pc t = POf) ∧ n_table s !! nt_name t = Some o) ∨ nt_pc t = PEmit o true
  | PAlloc p k => (nt_pc t = PStart ∨ nt_pc t = POf ∨ ∃ p, nt_pc t = PReload p) ∧ n_table s !! nt_name t = None
  | PReload p => nt_pc t = PCheck
  | PDenied => nt_pc t = PCheck ∧ nt_fn t = None
  | PRemove o => nt_pc t = PIn o ∨ (nt_pc t = PGot o ∧ ∃ id, nt_client t = Some (id, false))
  | PClose o => nt_pc t = PLen o ∧ cl = true ∧ ∃ x, n_objs s !! o = Some x ∧ is_Some (no_parent x) ∧ no_socks x = ∅
  | PEnd => (∃ o, nt_pc t = PLen o) ∨ ∃ o, nt_pc t = PUnchild o ∧ n_objs s !! o ≫= no_parent = None
  | _ => False
  end.
Inductive neff (cl : bool) (s : nstate) (i : nat) (t : nthread) : nstate → Prop :=
  | ne_id : neff cl s i t s
  | ne_local pc' : nlocal cl s t pc' → (∀ o k, nt_pc t = PEmit o k → nt_name t = "/" ∧ n_objs s !! o ≫= no_parent = None) → neff cl s i t (nset s i t pc')
  | ne_alloc p k pc' : nt_pc t = PAlloc p k →
      pc' = match p with Some p => PAdd p (length (n_objs s)) k | None => PStore (length (n_objs s)) k end →
      neff cl s i t (nset (nobjs (λ l, l ++ [NObj (nt_name t) p ∅ false]) s) i t pc')
  | ne_add p o k : nt_pc t = PAdd p o k → neff cl s i t (nset (nchildren p (λ c, {[o]} ∪ c) s) i t (PStore o k))
  | ne_store o k : nt_pc t = PStore o k → neff cl s i t (nset (ntable (insert (nt_name t) o) s) i t (PEmit o k))
  | ne_emit o k : nt_pc t = PEmit o k → neff cl s i t (nset (nemit o s) i t (if k then PGot o else POf))
  | ne_admit o id : nt_pc t = PGot o → nt_client t = Some (id, true) →
      neff cl s i t (nset (nobjs (alter (nsocks (λ x, {[id]} ∪ x)) o) s) i t (PIn o))
  | ne_remove o id b : nt_pc t = PRemove o → nt_client t = Some (id, b) →
      neff cl s i t (nset (nobjs (alter (nsocks (λ x, x ∖ {[id]})) o) s) i t (PLen o))
  | ne_close o : nt_pc t = PClose o → neff cl s i t (nset (nobjs (alter nclose o) s) i t (PDelete o))
  | ne_delete o : nt_pc t = PDelete o → neff cl s i t (nset (ntable (delete (nt_name t)) s) i t (PUnchild o))
  | ne_unchild o p : nt_pc t = PUnchild o → n_objs s !! o ≫= no_parent = Some p →
      neff cl s i t (nset (nchildren p (λ c, c ∖ {[o]}) s) i t PEnd).

Lemma nstep_cases cl s i : nstep cl s i = s ∨ ∃ t, n_threads s !! i = Some t ∧ neff cl s i t (nstep cl s i).
Proof.
  unfold nstep. destruct (n_threads s !! i) as [t|] eqn:Ht; [|by left]. right. exists t. split; [done|].
  destruct (nt_pc t) as [| |p| |p k|p o k|o k|o k| |o|o|o|o|o|o|o|] eqn:Hpc.
  - destruct (nt_client t) eqn:Hc, (n_table s !! nt_name t) eqn:Hl; apply ne_local; cbn; rewrite ?Hpc; eauto; congruence.
  - destruct (nt_fn t) eqn:Hf; apply ne_local; cbn; rewrite ?Hpc; eauto; congruence.
  - destruct (n_table s !! nt_name t) eqn:Hl; apply ne_local; cbn; rewrite ?Hpc; eauto; congruence.
  - destruct (n_table s !! nt_name t) eqn:Hl; apply ne_local; cbn; rewrite ?Hpc; eauto; congruence.
  - by eapply ne_alloc.
  - by apply ne_add.
  - by apply ne_store.
  - destruct (bool_decide (nt_name t = "/")) eqn:H1; cbn [andb]; [|by apply ne_emit].
    destruct (bool_decide (n_objs s !! o ≫= no_parent = None)) eqn:H2; [|by apply ne_emit].
    apply bool_decide_eq_true in H1, H2. apply ne_local.
    + destruct k; cbn; rewrite Hpc; eauto.
    + intros o' k' E. rewrite Hpc in E. injection E as <- <-. done.
  - apply ne_id.
  - destruct (nt_client t) as [[id [|]]|] eqn:Hc; [by apply ne_admit| |apply ne_id].
    apply ne_local; cbn; rewrite ?Hpc; eauto; congruence.
  - apply ne_local; cbn; rewrite ?Hpc; eauto; congruence.
  - destruct (nt_client t) as [[id b]|] eqn:Hc; [by eapply ne_remove|apply ne_id].
  - destruct (n_objs s !! o) as [x|] eqn:Hx; [|apply ne_local; cbn; rewrite ?Hpc; eauto; congruence].
    destruct (cl && bool_decide (is_Some (no_parent x)) && bool_decide (no_socks x = ∅)) eqn:Hb; apply ne_local; cbn; rewrite ?Hpc; eauto; try congruence.
    apply andb_true_iff in Hb as [Hb H3]. apply andb_true_iff in Hb as [H1 H2].
    apply bool_decide_eq_true in H2. apply bool_decide_eq_true in H3. eauto 10.
  - by apply ne_close.
  - by apply ne_delete.
  - destruct (n_objs s !! o ≫= no_parent) as [p|] eqn:Hp; [by apply ne_unchild|].
    apply ne_local; cbn; rewrite ?Hpc; eauto; congruence.
  - apply ne_id.
Qed.

Lemma nrun_snoc cl s l i : nrun cl s (l ++ [i]) = nstep cl (nrun cl s l) i.
Proof. unfold nrun. by rewrite foldl_app. Qed.
Lemma nrun_app cl s l l' : nrun cl s (l ++ l') = nrun cl (nrun cl s l) l'.
Proof. unfold nrun. by rewrite foldl_app. Qed.

(** Threads of the next state. *)
Lemma nset_threads s i t pc j u : n_threads s !! i = Some t → n_threads (nset s i t pc) !! j = Some u →
  (j = i ∧ u = nwith t pc) ∨ (j ≠ i ∧ n_threads s !! j = Some u).
Proof.
  intros Hi. unfold nset; cbn. destruct (decide (j = i)) as [->|Hne].
  - rewrite list_lookup_insert by (by eapply lookup_lt_Some). intros [= <-]. by left.
  - rewrite list_lookup_insert_ne by done. by right.
Qed.
Lemma nset_same s i t pc : n_threads s !! i = Some t → n_threads (nset s i t pc) !! i = Some (nwith t pc).
Proof. intros Hi. unfold nset; cbn. by rewrite list_lookup_insert by (by eapply lookup_lt_Some). Qed.
Lemma nset_other s i t pc j : j ≠ i → n_threads (nset s i t pc) !! j = n_threads s !! j.
Proof. intros Hj. unfold nset; cbn. by rewrite list_lookup_insert_ne. Qed.

(** The objects keep name and parent. *)
Lemma neff_objs cl s i t s' o x : neff cl s i t s' → n_objs s !! o = Some x →
  ∃ x', n_objs s' !! o = Some x' ∧ no_name x' = no_name x ∧ no_parent x' = no_parent x.
Proof.
  intros He Hx. inversion He; subst; cbn; eauto.
  - exists x. split; [|done]. by apply lookup_app_l_Some.
  - destruct (decide (o0 = o)) as [->|Hne]; [|rewrite list_lookup_alter_ne by done; eauto].
    rewrite list_lookup_alter, Hx. cbn. eauto.
  - destruct (decide (o0 = o)) as [->|Hne]; [|rewrite list_lookup_alter_ne by done; eauto].
    rewrite list_lookup_alter, Hx. cbn. eauto.
  - destruct (decide (o0 = o)) as [->|Hne]; [|rewrite list_lookup_alter_ne by done; eauto].
    rewrite list_lookup_alter, Hx. cbn. eauto.
Qed.
(** And no object appears but by allocation. *)
Lemma neff_objs_back cl s i t s' o x : neff cl s i t s' → n_objs s' !! o = Some x →
  (∃ x', n_objs s !! o = Some x' ∧ no_name x' = no_name x ∧ no_parent x' = no_parent x) ∨
  (o = length (n_objs s) ∧ no_name x = nt_name t ∧ ∃ p k, nt_pc t = PAlloc p k ∧ no_parent x = p).
Proof.
  intros He Hx. inversion He; subst; cbn in Hx; eauto.
  - apply lookup_app_Some in Hx as [Hx|[Hle Hx]]; [eauto|]. right.
    destruct (o - length (n_objs s)) as [|m] eqn:Hm; [|by destruct m]. cbn in Hx. injection Hx as <-. split; [lia|eauto].
  - destruct (decide (o0 = o)) as [->|Hne]; [|rewrite list_lookup_alter_ne in Hx by done; eauto].
    rewrite list_lookup_alter in Hx. destruct (n_objs s !! o) eqn:E; [|done]. cbn in Hx. injection Hx as <-. eauto.
  - destruct (decide (o0 = o)) as [->|Hne]; [|rewrite list_lookup_alter_ne in Hx by done; eauto].
    rewrite list_lookup_alter in Hx. destruct (n_objs s !! o) eqn:E; [|done]. cbn in Hx. injection Hx as <-. eauto.
  - destruct (decide (o0 = o)) as [->|Hne]; [|rewrite list_lookup_alter_ne in Hx by done; eauto].
    rewrite list_lookup_alter in Hx. destruct (n_objs s !! o) eqn:E; [|done]. cbn in Hx. injection Hx as <-. eauto.
Qed.

(** The object a program counter mentions. *)
Definition mentions (pc : npc) : option nat :=
  match pc with PAdd _ o _ | PStore o _ | PEmit o _ => Some o | _ => given pc end.
Definition early (pc : npc) : option nat := match pc with PAdd _ o _ | PStore o _ => Some o | _ => None end.
Definition owns (pc : npc) : option nat := match pc with PAdd _ o _ | PStore o _ | PEmit o _ => Some o | _ => None end.

Record ninv (cl : bool) (s : nstate) : Prop := NInv {
  ni_table : ∀ n o, n_table s !! n = Some o → ∃ x, n_objs s !! o = Some x ∧ no_name x = n;
  ni_thread : ∀ i t o, n_threads s !! i = Some t → mentions (nt_pc t) = Some o → ∃ x, n_objs s !! o = Some x ∧ no_name x = nt_name t;
  ni_add : ∀ i t p o k, n_threads s !! i = Some t → nt_pc t = PAdd p o k → ∃ x, n_objs s !! o = Some x ∧ no_parent x = Some p;
  ni_store : ∀ i t o k x p, n_threads s !! i = Some t → nt_pc t = PStore o k → n_objs s !! o = Some x → no_parent x = Some p → o ∈ children s p;
  ni_early_table : ∀ i t o n, n_threads s !! i = Some t → early (nt_pc t) = Some o → n_table s !! n ≠ Some o;
  ni_early : ∀ i t j u o, n_threads s !! i = Some t → early (nt_pc t) = Some o → n_threads s !! j = Some u → mentions (nt_pc u) = Some o → i = j;
  ni_owns : ∀ i t j u o, n_threads s !! i = Some t → owns (nt_pc t) = Some o → n_threads s !! j = Some u → owns (nt_pc u) = Some o → i = j;
  ni_unchild : ∀ i t o n, n_threads s !! i = Some t → nt_pc t = PUnchild o → n_table s !! n ≠ Some o;
  ni_children : ∀ n o x p, n_table s !! n = Some o → n_objs s !! o = Some x → no_parent x = Some p → o ∈ children s p;
  ni_events : ∀ o, o ∈ n_events s → o < length (n_objs s);
  ni_events_owns : ∀ o i t, o ∈ n_events s → n_threads s !! i = Some t → owns (nt_pc t) ≠ Some o;
  ni_nodup : NoDup (n_events s);
  ni_announced : ∀ n o, n_table s !! n = Some o → o ∈ n_events s ∨ n = "/" ∨ ∃ i t k, n_threads s !! i = Some t ∧ nt_pc t = PEmit o k;
  ni_cleanup : ∀ i t o, n_threads s !! i = Some t → nt_pc t = PClose o ∨ nt_pc t = PDelete o → cl = true }.

Lemma ninv_init cl ts : unbegun ts → ninv cl (ninit ts).
Proof.
  intros Hts.
  assert (H : ∀ i t, n_threads (ninit ts) !! i = Some t → nt_pc t = PStart).
  { intros i t Hi. cbn in Hi. unfold unbegun in Hts. rewrite Forall_lookup in Hts. eauto. }
  constructor; cbn [ninit n_table n_events].
  - intros n o. rewrite lookup_empty. done.
  - intros i t o Hi. rewrite (H i t Hi). done.
  - intros i t p o k Hi. rewrite (H i t Hi). done.
  - intros i t o k x p Hi. rewrite (H i t Hi). done.
  - intros i t o n Hi. rewrite (H i t Hi). done.
  - intros i t j u o Hi. rewrite (H i t Hi). done.
  - intros i t j u o Hi. rewrite (H i t Hi). done.
  - intros i t o n Hi. rewrite (H i t Hi). done.
  - intros n o x p. rewrite lookup_empty. done.
  - intros o Ho. by apply elem_of_nil in Ho.
  - intros o i t Ho. by apply elem_of_nil in Ho.
  - constructor.
  - intros n o. rewrite lookup_empty. done.
  - intros i t o Hi. rewrite (H i t Hi). by intros [?|?].
Qed.

(** What a step does to a program counter: the mentioned object. *)
Lemma nlocal_mentions cl s t pc' o : nlocal cl s t pc' → mentions pc' = Some o →
  mentions (nt_pc t) = Some o ∨ n_table s !! nt_name t = Some o.
Proof.
  destruct pc'; cbn; try done; intros H [= <-].
  - destruct H as [[_ H]|H]; [by right|left; by rewrite H].
  - destruct H as [H|[H _]]; left; by rewrite H.
  - destruct H as [H _]. left; by rewrite H.
Qed.
Lemma nlocal_not cl s t pc' p o q k : nlocal cl s t pc' → nt_pc t ≠ PAdd p o k ∧ nt_pc t ≠ PAlloc q k.
Proof. intros Hl. split; intros Hpc; destruct pc'; cbn in Hl; try rewrite Hpc in Hl; naive_solver. Qed.
Lemma nlocal_owns cl s t pc' : nlocal cl s t pc' → owns pc' = None ∧ early pc' = None.
Proof. by destruct pc'. Qed.


(** A summary of a step that is not idle. *)
Definition allocs (s : nstate) (t : nthread) (o : nat) : Prop := o = length (n_objs s) ∧ ∃ p k, nt_pc t = PAlloc p k.
Record nsum (cl : bool) (s : nstate) (i : nat) (t : nthread) (s' : nstate) (pc' : npc) : Prop := NSum {
  ns_threads : n_threads s' = <[i := nwith t pc']> (n_threads s);
  ns_table : ∀ n o, n_table s' !! n = Some o → n_table s !! n = Some o ∨ (n = nt_name t ∧ ∃ k, nt_pc t = PStore o k ∧ pc' = PEmit o k);
  ns_children : ∀ p o, o ∈ children s p → o ∈ children s' p ∨ nt_pc t = PUnchild o;
  ns_children_add : ∀ p o k, nt_pc t = PAdd p o k → o ∈ children s' p;
  ns_events : n_events s' = n_events s ∨ ∃ o k, nt_pc t = PEmit o k ∧ n_events s' = n_events s ++ [o];
  ns_emitted : ∀ o k, nt_pc t = PEmit o k → o ∈ n_events s' ∨ nt_name t = "/";
  ns_mentions : ∀ o, mentions pc' = Some o → mentions (nt_pc t) = Some o ∨ n_table s !! nt_name t = Some o ∨ allocs s t o;
  ns_owns : ∀ o, owns pc' = Some o → owns (nt_pc t) = Some o ∨ allocs s t o;
  ns_early : ∀ o, early pc' = Some o → early (nt_pc t) = Some o ∨ allocs s t o;
  ns_pstore : ∀ o k, pc' = PStore o k → (∃ p, nt_pc t = PAdd p o k) ∨ (o = length (n_objs s) ∧ nt_pc t = PAlloc None k);
  ns_padd : ∀ p o k, pc' = PAdd p o k → o = length (n_objs s) ∧ nt_pc t = PAlloc (Some p) k;
  ns_unchild : ∀ o, pc' = PUnchild o → nt_pc t = PDelete o ∧ n_table s' = delete (nt_name t) (n_table s);
  ns_alloc : ∀ p k, nt_pc t = PAlloc p k → ∃ x, n_objs s' !! length (n_objs s) = Some x ∧ no_name x = nt_name t ∧ no_parent x = p;
  ns_emit_owns : ∀ o k, nt_pc t = PEmit o k → owns pc' = None;
  ns_cleanup : ∀ o, pc' = PClose o ∨ pc' = PDelete o → cl = true ∨ nt_pc t = PClose o }.

Lemma children_nchildren p f s p' : children (nchildren p f s) p' = if decide (p' = p) then f (children s p) else children s p'.
Proof.
  unfold children at 1, nchildren; cbn. destruct (decide (p' = p)) as [->|Hne].
  - by rewrite lookup_insert.
  - by rewrite lookup_insert_ne.
Qed.
Lemma children_nset s i t pc p : children (nset s i t pc) p = children s p.
Proof. done. Qed.

Lemma neff_sum cl s i t s' : neff cl s i t s' → s' = s ∨ ∃ pc', nsum cl s i t s' pc'.
Proof.
  intros He. destruct He as [|pc' Hl Hnr|p k pc' Hpc ->|p o k Hpc|o k Hpc|o k Hpc|o id Hpc Hc|o id b Hpc Hc|o Hpc|o Hpc|o p Hpc Hp]; [by left|right; eexists..].
  - apply (NSum _ _ _ _ _ pc'); [reflexivity|..]; try (destruct pc'; done).
    + intros n o; by left.
    + intros q o; by left.
    + intros q o k Hpc. by destruct (nlocal_not _ _ _ _ q o None k Hl) as [? _].
    + by left.
    + intros o k Hpc. right. by eapply Hnr.
    + intros o Ho. destruct (nlocal_mentions _ _ _ _ _ Hl Ho); auto.
    + intros p k Hpc. by destruct (nlocal_not _ _ _ _ 0 0 p k Hl) as [_ ?].
    + intros o [->| ->]; cbn in Hl; [|done]. left. tauto.
  - eapply NSum; [reflexivity|..]; try (intros; congruence).
    + intros n o; by left.
    + intros q o; by left.
    + by left.
    + intros o Ho. right; right. split; [|eauto]. destruct p; cbn in Ho; congruence.
    + intros o Ho. right. split; [|eauto]. destruct p; cbn in Ho; congruence.
    + intros o Ho. right. split; [|eauto]. destruct p; cbn in Ho; congruence.
    + intros o k' Ho. right. destruct p; [done|]. injection Ho as <- <-. done.
    + intros q o k' Ho. destruct p; [|done]. injection Ho as <- <- <-. done.
    + intros o Ho. by destruct p.
    + intros q k' E. rewrite Hpc in E. injection E as <- <-. cbn. rewrite lookup_app_r, Nat.sub_diag by lia. eexists. done.
    + intros o Ho. destruct p; naive_solver.
  - eapply NSum; [reflexivity|..]; try (intros; congruence).
    + intros n o'; by left.
    + intros q o' Ho. left. rewrite children_nset, children_nchildren. destruct (decide (q = p)) as [->|]; [|done]. apply elem_of_union. by right.
    + intros q o' k' E. rewrite Hpc in E. injection E as <- <- <-. rewrite children_nset, children_nchildren, decide_True by done.
      apply elem_of_union_l, elem_of_singleton. done.
    + by left.
    + intros o' E. cbn in E. injection E as <-. left. by rewrite Hpc.
    + intros o' E. cbn in E. injection E as <-. left. by rewrite Hpc.
    + intros o' E. cbn in E. injection E as <-. left. by rewrite Hpc.
    + intros o' k' E. injection E as <- <-. left. eauto.
    + intros o' [E|E]; done.
  - eapply NSum; [reflexivity|..]; try (intros; congruence).
    + intros n o'. cbn. destruct (decide (nt_name t = n)) as [<-|Hne].
      * rewrite lookup_insert. intros [= <-]. right. eauto.
      * rewrite lookup_insert_ne by done. by left.
    + intros q o'; by left.
    + by left.
    + intros o' E. cbn in E. injection E as <-. left. by rewrite Hpc.
    + intros o' E. cbn in E. injection E as <-. left. by rewrite Hpc.
    + intros o' E. done.
    + intros o' [E|E]; done.
  - eapply NSum; [reflexivity|..]; try (intros; congruence).
    + intros n o'; by left.
    + intros q o'; by left.
    + right. eexists _, _. split; [exact Hpc|reflexivity].
    + intros o' k' E. rewrite Hpc in E. injection E as <- <-. left. cbn. apply elem_of_app. right. by apply elem_of_list_singleton.
    + intros o' E. destruct k; [|done]. cbn in E. injection E as <-. left. by rewrite Hpc.
    + intros o' E. by destruct k.
    + intros o' E. by destruct k.
    + intros o' k' E. by destruct k.
    + intros q o' k' E. by destruct k.
    + intros o' E. by destruct k.
    + intros o' k' _. by destruct k.
    + intros o' E. destruct k; by destruct E.
  - eapply NSum; [reflexivity|..]; try (intros; congruence).
    + intros n o'; by left.
    + intros q o'; by left.
    + by left.
    + intros o' E. cbn in E. injection E as <-. left. by rewrite Hpc.
    + intros o' E. done.
    + intros o' E. done.
    + intros o' [E|E]; done.
  - eapply NSum; [reflexivity|..]; try (intros; congruence).
    + intros n o'; by left.
    + intros q o'; by left.
    + by left.
    + intros o' E. cbn in E. injection E as <-. left. by rewrite Hpc.
    + intros o' E. done.
    + intros o' E. done.
    + intros o' [E|E]; done.
  - eapply NSum; [reflexivity|..]; try (intros; congruence).
    + intros n o'; by left.
    + intros q o'; by left.
    + by left.
    + intros o' E. cbn in E. injection E as <-. left. by rewrite Hpc.
    + intros o' E. done.
    + intros o' E. done.
    + intros o' [E|E]; [done|]. injection E as <-. by right.
  - eapply NSum; [reflexivity|..]; try (intros; congruence).
    + intros n o'. cbn. intros E. apply lookup_delete_Some in E as [_ E]. by left.
    + intros q o'; by left.
    + by left.
    + intros o' E. cbn in E. injection E as <-. left. by rewrite Hpc.
    + intros o' E. done.
    + intros o' E. done.
    + intros o' E. injection E as <-. done.
    + intros o' [E|E]; done.
  - eapply NSum; [reflexivity|..]; try (intros; congruence).
    + intros n o'; by left.
    + intros q o' Ho. rewrite children_nset, children_nchildren. destruct (decide (q = p)) as [->|]; [|by left].
      destruct (decide (o' = o)) as [->|Hne]; [by right|]. left. apply elem_of_difference. split; [done|]. by rewrite elem_of_singleton.
    + by left.
    + intros o' E. done.
    + intros o' E. done.
    + intros o' E. done.
    + intros o' [E|E]; done.
Qed.

Lemma ninv_step cl s i : ninv cl s → ninv cl (nstep cl s i).
Proof.
  intros I. destruct (nstep_cases cl s i) as [->|(t & Ht & He)]; [done|].
  revert He. generalize (nstep cl s i). intros s' He.
  pose proof (λ o x, neff_objs _ _ _ _ _ o x He) as Hob. pose proof (λ o x, neff_objs_back _ _ _ _ _ o x He) as Hbk.
  destruct (neff_sum _ _ _ _ _ He) as [->|(pc' & S)]; [done|]. clear He.
  assert (Hth : ∀ j u, n_threads s' !! j = Some u → (j = i ∧ u = nwith t pc') ∨ (j ≠ i ∧ n_threads s !! j = Some u)).
  { intros j u. rewrite (ns_threads _ _ _ _ _ _ S). destruct (decide (j = i)) as [->|Hne].
    - rewrite list_lookup_insert by (by eapply lookup_lt_Some). intros [= <-]. by left.
    - rewrite list_lookup_insert_ne by done. by right. }
  assert (Hsame : n_threads s' !! i = Some (nwith t pc')).
  { rewrite (ns_threads _ _ _ _ _ _ S). by rewrite list_lookup_insert by (by eapply lookup_lt_Some). }
  assert (Hoth : ∀ j, j ≠ i → n_threads s' !! j = n_threads s !! j).
  { intros j Hj. rewrite (ns_threads _ _ _ _ _ _ S). by rewrite list_lookup_insert_ne. }
  assert (Hnew : ∀ p k, nt_pc t = PAlloc p k → ∃ x, n_objs s' !! length (n_objs s) = Some x ∧ no_name x = nt_name t ∧ no_parent x = p).
  { exact (ns_alloc _ _ _ _ _ _ S). }
  (* an object of an allocating step is mentioned nowhere in the old state *)
  assert (Hmt : ∀ j u o, n_threads s !! j = Some u → mentions (nt_pc u) = Some o → o < length (n_objs s)).
  { intros j u o Hj Ho. destruct (ni_thread _ _ I _ _ _ Hj Ho) as (x & Hx & _). by eapply lookup_lt_Some. }
  assert (Htb : ∀ n o, n_table s !! n = Some o → o < length (n_objs s)).
  { intros n o Hn. destruct (ni_table _ _ I _ _ Hn) as (x & Hx & _). by eapply lookup_lt_Some. }
  assert (Hom : ∀ pc o, owns pc = Some o → mentions pc = Some o) by (intros [] z; cbn; congruence).
  assert (Hem : ∀ pc o, early pc = Some o → mentions pc = Some o) by (intros [] z; cbn; congruence).
  assert (Heo : ∀ pc o, early pc = Some o → owns pc = Some o) by (intros [] z; cbn; congruence).
  constructor.
  - (* table *)
    intros n o Hn. destruct (ns_table _ _ _ _ _ _ S n o Hn) as [Ho|(-> & k & Hpc & _)].
    + destruct (ni_table _ _ I _ _ Ho) as (x & Hx & <-). destruct (Hob _ _ Hx) as (x' & Hx' & E & _). eauto.
    + destruct (ni_thread _ _ I _ _ o Ht) as (x & Hx & <-); [by rewrite Hpc|]. destruct (Hob _ _ Hx) as (x' & Hx' & E & _). eauto.
  - (* thread *)
    intros j u o Hj Ho. destruct (Hth _ _ Hj) as [[-> ->]|[Hne Hj']]; cbn in Ho |- *.
    + destruct (ns_mentions _ _ _ _ _ _ S _ Ho) as [Hm|[Hm|(-> & p & k & Hpc)]].
      * destruct (ni_thread _ _ I _ _ _ Ht Hm) as (x & Hx & <-). destruct (Hob _ _ Hx) as (x' & Hx' & E & _). eauto.
      * destruct (ni_table _ _ I _ _ Hm) as (x & Hx & E'). destruct (Hob _ _ Hx) as (x' & Hx' & E & _). exists x'. split; congruence.
      * destruct (Hnew _ _ Hpc) as (x & Hx & E & _). eauto.
    + destruct (ni_thread _ _ I _ _ _ Hj' Ho) as (x & Hx & <-). destruct (Hob _ _ Hx) as (x' & Hx' & E & _). eauto.
  - (* add *)
    intros j u p o k Hj Ho. destruct (Hth _ _ Hj) as [[-> ->]|[Hne Hj']]; cbn in Ho |- *.
    + destruct (ns_padd _ _ _ _ _ _ S _ _ _ Ho) as (-> & Hpc). destruct (Hnew _ _ Hpc) as (x & Hx & _ & E). eauto.
    + destruct (ni_add _ _ I _ _ _ _ _ Hj' Ho) as (x & Hx & E'). destruct (Hob _ _ Hx) as (x' & Hx' & _ & E). exists x'. split; congruence.
  - (* store *)
    intros j u o k x p Hj Ho Hx Hp. destruct (Hth _ _ Hj) as [[-> ->]|[Hne Hj']]; cbn in Ho.
    + destruct (ns_pstore _ _ _ _ _ _ S _ _ Ho) as [(q & Hpc)|(-> & Hpc)].
      * destruct (ni_add _ _ I _ _ _ _ _ Ht Hpc) as (y & Hy & E). destruct (Hob _ _ Hy) as (y' & Hy' & _ & E').
        assert (q = p) as -> by congruence. by apply (ns_children_add _ _ _ _ _ _ S _ _ k).
      * destruct (Hnew _ _ Hpc) as (y & Hy & _ & E). congruence.
    + assert (Hlt : o < length (n_objs s)) by (eapply Hmt; [exact Hj'|by rewrite Ho]).
      destruct (Hbk _ _ Hx) as [(y & Hy & _ & E)|(-> & _)]; [|lia].
      assert (Hc : o ∈ children s p) by (eapply (ni_store _ _ I); [exact Hj'|exact Ho|exact Hy|congruence]).
      destruct (ns_children _ _ _ _ _ _ S _ _ Hc) as [?|Hpc]; [done|].
      destruct Hne. eapply (ni_early _ _ I j u i t o); [done|by rewrite Ho|done|by rewrite Hpc].
  - (* early table *)
    intros j u o n Hj Ho Hn. destruct (Hth _ _ Hj) as [[-> ->]|[Hne Hj']]; cbn in Ho.
    + destruct (ns_table _ _ _ _ _ _ S _ _ Hn) as [Hn'|(-> & k & Hpc & ->)]; [|done].
      destruct (ns_early _ _ _ _ _ _ S _ Ho) as [E|(-> & _)].
      * by apply (ni_early_table _ _ I _ _ _ n Ht E).
      * apply Htb in Hn'. lia.
    + destruct (ns_table _ _ _ _ _ _ S _ _ Hn) as [Hn'|(-> & k & Hpc & ->)].
      * by apply (ni_early_table _ _ I _ _ _ n Hj' Ho).
      * destruct Hne. eapply (ni_early _ _ I j u i t o); [done|done|done|by rewrite Hpc].
  - (* early *)
    intros j u j' u' o Hj Ho Hj' Ho'.
    destruct (Hth _ _ Hj) as [[-> ->]|[Hne Hj1]], (Hth _ _ Hj') as [[-> ->]|[Hne' Hj1']]; cbn in Ho, Ho'; [done|..].
    + destruct (ns_early _ _ _ _ _ _ S _ Ho) as [E|(-> & _)].
      * exact (ni_early _ _ I _ _ _ _ _ Ht E Hj1' Ho').
      * pose proof (Hmt _ _ _ Hj1' Ho'). lia.
    + destruct (ns_mentions _ _ _ _ _ _ S _ Ho') as [Hm|[Hm|(-> & p & k & Hpc)]].
      * exact (ni_early _ _ I _ _ _ _ _ Hj1 Ho Ht Hm).
      * destruct (ni_early_table _ _ I _ _ _ _ Hj1 Ho Hm).
      * pose proof (Hmt _ _ _ Hj1 (Hem _ _ Ho)). lia.
    + exact (ni_early _ _ I _ _ _ _ _ Hj1 Ho Hj1' Ho').
  - (* owns *)
    intros j u j' u' o Hj Ho Hj' Ho'.
    destruct (Hth _ _ Hj) as [[-> ->]|[Hne Hj1]], (Hth _ _ Hj') as [[-> ->]|[Hne' Hj1']]; cbn in Ho, Ho'; [done|..].
    + destruct (ns_owns _ _ _ _ _ _ S _ Ho) as [E|(-> & _)].
      * exact (ni_owns _ _ I _ _ _ _ _ Ht E Hj1' Ho').
      * pose proof (Hmt _ _ _ Hj1' (Hom _ _ Ho')). lia.
    + destruct (ns_owns _ _ _ _ _ _ S _ Ho') as [E|(-> & _)].
      * exact (ni_owns _ _ I _ _ _ _ _ Hj1 Ho Ht E).
      * pose proof (Hmt _ _ _ Hj1 (Hom _ _ Ho)). lia.
    + exact (ni_owns _ _ I _ _ _ _ _ Hj1 Ho Hj1' Ho').
  - (* unchild *)
    intros j u o n Hj Ho Hn. destruct (Hth _ _ Hj) as [[-> ->]|[Hne Hj']]; cbn in Ho.
    + destruct (ns_unchild _ _ _ _ _ _ S _ Ho) as [Hpc Ht'].
      assert (Hm : mentions (nt_pc t) = Some o) by (by rewrite Hpc).
      rewrite Ht' in Hn. apply lookup_delete_Some in Hn as [Hnn Hn].
      destruct (ni_table _ _ I _ _ Hn) as (x & Hx & En). destruct (ni_thread _ _ I _ _ _ Ht Hm) as (y & Hy & En'). congruence.
    + destruct (ns_table _ _ _ _ _ _ S _ _ Hn) as [Hn'|(-> & k & Hpc & _)].
      * by apply (ni_unchild _ _ I _ _ _ n Hj' Ho).
      * destruct Hne. symmetry. eapply (ni_early _ _ I i t j u o); [done|by rewrite Hpc|done|by rewrite Ho].
  - (* children *)
    intros n o x p Hn Hx Hp.
    destruct (ns_table _ _ _ _ _ _ S _ _ Hn) as [Hn'|(-> & k & Hpc & _)].
    + pose proof (Htb _ _ Hn') as Hlt. destruct (Hbk _ _ Hx) as [(y & Hy & _ & E)|(-> & _)]; [|lia].
      assert (Hc : o ∈ children s p) by (eapply (ni_children _ _ I); [exact Hn'|exact Hy|congruence]).
      destruct (ns_children _ _ _ _ _ _ S _ _ Hc) as [?|Hpc]; [done|]. destruct (ni_unchild _ _ I _ _ _ _ Ht Hpc Hn').
    + assert (Hm : mentions (nt_pc t) = Some o) by (by rewrite Hpc). pose proof (Hmt _ _ _ Ht Hm) as Hlt.
      destruct (Hbk _ _ Hx) as [(y & Hy & _ & E)|(-> & _)]; [|lia].
      assert (Hc : o ∈ children s p) by (eapply (ni_store _ _ I); [exact Ht|exact Hpc|exact Hy|congruence]).
      destruct (ns_children _ _ _ _ _ _ S _ _ Hc) as [?|Hpc']; [done|congruence].
  - (* events *)
    intros o Ho.
    assert (Hlen : length (n_objs s) <= length (n_objs s')).
    { destruct (decide (length (n_objs s) = 0)) as [|Hz]; [lia|].
      destruct (lookup_lt_is_Some_2 (n_objs s) (length (n_objs s) - 1)) as [x Hx]; [lia|].
      destruct (Hob _ _ Hx) as (x' & Hx' & _). apply lookup_lt_Some in Hx'. lia. }
    destruct (ns_events _ _ _ _ _ _ S) as [E|(o' & k & Hpc & E)]; rewrite E in Ho.
    + apply (ni_events _ _ I) in Ho. lia.
    + apply elem_of_app in Ho as [Ho|Ho]; [apply (ni_events _ _ I) in Ho; lia|]. apply elem_of_list_singleton in Ho as ->.
      assert (o' < length (n_objs s)) by (eapply Hmt; [exact Ht|by rewrite Hpc]). lia.
  - (* events owns *)
    intros o j u Ho Hj Hown.
    destruct (ns_events _ _ _ _ _ _ S) as [E|(o' & k & Hpc & E)]; rewrite E in Ho; [|apply elem_of_app in Ho as [Ho|Ho]].
    + destruct (Hth _ _ Hj) as [[-> ->]|[Hne Hj']]; cbn in Hown.
      * destruct (ns_owns _ _ _ _ _ _ S _ Hown) as [E'|(-> & _)]; [exact (ni_events_owns _ _ I _ _ _ Ho Ht E')|].
        apply (ni_events _ _ I) in Ho. lia.
      * exact (ni_events_owns _ _ I _ _ _ Ho Hj' Hown).
    + destruct (Hth _ _ Hj) as [[-> ->]|[Hne Hj']]; cbn in Hown.
      * destruct (ns_owns _ _ _ _ _ _ S _ Hown) as [E'|(-> & _)]; [exact (ni_events_owns _ _ I _ _ _ Ho Ht E')|].
        apply (ni_events _ _ I) in Ho. lia.
      * exact (ni_events_owns _ _ I _ _ _ Ho Hj' Hown).
    + apply elem_of_list_singleton in Ho as ->.
      destruct (Hth _ _ Hj) as [[-> ->]|[Hne Hj']]; cbn in Hown.
      * rewrite (ns_emit_owns _ _ _ _ _ _ S _ _ Hpc) in Hown. done.
      * destruct Hne. eapply (ni_owns _ _ I j u i t o'); [done|done|done|by rewrite Hpc].
  - (* nodup *)
    destruct (ns_events _ _ _ _ _ _ S) as [E|(o & k & Hpc & E)]; rewrite E; [exact (ni_nodup _ _ I)|].
    apply NoDup_app. split; [exact (ni_nodup _ _ I)|]. split; [|apply NoDup_singleton].
    intros o' Ho' H. apply elem_of_list_singleton in H as ->. eapply (ni_events_owns _ _ I _ _ _ Ho' Ht). by rewrite Hpc.
  - (* announced *)
    intros n o Hn. destruct (ns_table _ _ _ _ _ _ S _ _ Hn) as [Hn'|(-> & k & Hpc & ->)].
    + destruct (ni_announced _ _ I _ _ Hn') as [H|[->|(j & u & k & Hj & Hpc)]]; [left|by right; left|].
      * destruct (ns_events _ _ _ _ _ _ S) as [->|(o' & k & _ & ->)]; [done|]. apply elem_of_app. by left.
      * destruct (decide (j = i)) as [->|Hne].
        -- assert (u = t) as -> by congruence. destruct (ns_emitted _ _ _ _ _ _ S _ _ Hpc) as [?|E]; [by left|].
           right; left. destruct (ni_table _ _ I _ _ Hn') as (x & Hx & <-). destruct (ni_thread _ _ I _ _ o Ht) as (y & Hy & Ey); [by rewrite Hpc|]. congruence.
        -- right; right. exists j, u, k. split; [by rewrite Hoth|done].
    + right; right. exists i, (nwith t (PEmit o k)), k. done.
  - (* cleanup *)
    intros j u o Hj Ho. destruct (Hth _ _ Hj) as [[-> ->]|[Hne Hj']]; cbn in Ho.
    + destruct (ns_cleanup _ _ _ _ _ _ S _ Ho) as [?|E]; [done|]. eapply (ni_cleanup _ _ I); [exact Ht|eauto].
    + by eapply (ni_cleanup _ _ I).
Qed.

Record nsum2 (cl : bool) (s : nstate) (i : nat) (t : nthread) (s' : nstate) (pc' : npc) : Prop := NSum2 {
  ns_threads2 : n_threads s' = <[i := nwith t pc']> (n_threads s);
  ns_given : ∀ o, given pc' = Some o → given (nt_pc t) = Some o ∨ (∃ k, nt_pc t = PEmit o k) ∨ n_table s !! nt_name t = Some o;
  ns_pemit : ∀ o k, pc' = PEmit o k → nt_pc t = PStore o k ∧ n_table s' = <[nt_name t := o]> (n_table s);
  ns_check : pc' = PCheck → is_Some (nt_client t) ∧ n_table s !! nt_name t = None;
  ns_denied : pc' = PDenied → nt_pc t = PCheck ∧ nt_fn t = None;
  ns_table_keep : ∀ n, n_table s' !! n = n_table s !! n ∨
    (n = nt_name t ∧ ((∃ o k, nt_pc t = PStore o k ∧ pc' = PEmit o k) ∨ ∃ o, nt_pc t = PDelete o));
  ns_creating : creating pc' = true → creating (nt_pc t) = true ∨ n_table s !! nt_name t = None;
  ns_early_keep : ∀ o, early (nt_pc t) = Some o → early pc' = Some o ∨ pc' = PEmit o (match nt_pc t with PStore _ k => k | _ => true end);
  ns_alloc_early : ∀ p k, nt_pc t = PAlloc p k → early pc' = Some (length (n_objs s));
  ns_close : ∀ o, pc' = PClose o → cl = true ∧ nt_pc t = PLen o ∧ ∃ x, n_objs s !! o = Some x ∧ is_Some (no_parent x) ∧ no_socks x = ∅;
  ns_pdelete : ∀ o, pc' = PDelete o → nt_pc t = PClose o }.

Lemma neff_sum2 cl s i t s' : neff cl s i t s' → s' = s ∨ ∃ pc', nsum2 cl s i t s' pc'.
Proof.
  intros He. destruct He as [|pc' Hl Hnr|p k pc' Hpc ->|p o k Hpc|o k Hpc|o k Hpc|o id Hpc Hc|o id b Hpc Hc|o Hpc|o Hpc|o p Hpc Hp]; [by left|right; eexists..].
  1: { apply (NSum2 _ _ _ _ _ pc'); [reflexivity|..].
    - intros o Ho. destruct pc'; cbn in Ho; try done; injection Ho as <-; cbn in Hl; try done.
      + destruct Hl as [[_ ?]|?]; eauto.
      + destruct Hl as [Hl|[Hl _]]; rewrite Hl; by left.
      + destruct Hl as [Hl _]. rewrite Hl. by left.
    - intros o k ->. done.
    - intros ->. cbn in Hl. tauto.
    - intros ->. done.
    - intros n. by left.
    - intros Hc. destruct pc'; try done. right. apply Hl.
    - intros o Ho. destruct (nlocal_not _ _ _ _ 0 o None true Hl) as [_ _]. exfalso.
      destruct (nt_pc t) eqn:E; try done; destruct pc'; cbn in Hl; try rewrite E in Hl; naive_solver.
    - intros p k Hpc. by destruct (nlocal_not _ _ _ _ 0 0 p k Hl) as [_ ?].
    - intros o ->. cbn in Hl. tauto.
    - intros o ->. done. }
  all: eapply NSum2; [reflexivity|..]; rewrite ?Hpc; cbn [given early creating].
  all: try (intros; congruence).
  all: try (intros n; by left).
  all: try (intros o' E; injection E as <-; eauto; fail).
  all: try (intros o'; destruct p; done).
  all: try (intros o' k'; destruct p; done).
  all: try (destruct p; done).
  all: try (destruct k; done).
  all: try (intros o'; destruct k; cbn; intros E; try done; injection E as <-; eauto; fail).
  all: try (intros o' k'; destruct k; done).
  all: try (intros o' k' E; injection E as <- <-; done).
  - intros n. destruct (decide (n = nt_name t)) as [->|Hne]; [right; eauto 10|left; cbn; by rewrite lookup_insert_ne].
  - intros n. destruct (decide (n = nt_name t)) as [->|Hne]; [right; eauto 10|left; cbn; by rewrite lookup_delete_ne].
Qed.

Lemma ninv_run cl ts sched : unbegun ts → ninv cl (nrun cl (ninit ts) sched).
Proof.
  intros Hts. induction sched as [|j sched IH] using rev_ind; [by apply ninv_init|]. rewrite nrun_snoc. by apply ninv_step.
Qed.

(** One step, for the run-invariants. *)
Lemma nstep_sums cl s i : nstep cl s i = s ∨
  ∃ t pc', n_threads s !! i = Some t ∧ nsum2 cl s i t (nstep cl s i) pc' ∧ neff cl s i t (nstep cl s i) ∧ n_threads (nstep cl s i) !! i = Some (nwith t pc').
Proof.
  destruct (nstep_cases cl s i) as [->|(t & Ht & He)]; [by left|].
  destruct (neff_sum2 _ _ _ _ _ He) as [->|(pc' & S)]; [by left|]. right. exists t, pc'. split; [done|]. split; [done|]. split; [done|].
  rewrite (ns_threads2 _ _ _ _ _ _ S). by rewrite list_lookup_insert by (by eapply lookup_lt_Some).
Qed.
Lemma nsum2_threads cl s i t s' pc' j u : n_threads s !! i = Some t → nsum2 cl s i t s' pc' → n_threads s' !! j = Some u →
  (j = i ∧ u = nwith t pc') ∨ (j ≠ i ∧ n_threads s !! j = Some u).
Proof.
  intros Ht S. rewrite (ns_threads2 _ _ _ _ _ _ S). destruct (decide (j = i)) as [->|Hne].
  - rewrite list_lookup_insert by (by eapply lookup_lt_Some). intros [= <-]. by left.
  - rewrite list_lookup_insert_ne by done. by right.
Qed.
Lemma nsum2_other cl s i t s' pc' j : nsum2 cl s i t s' pc' → j ≠ i → n_threads s' !! j = n_threads s !! j.
Proof. intros S Hj. rewrite (ns_threads2 _ _ _ _ _ _ S). by rewrite list_lookup_insert_ne. Qed.

Lemma beside_snoc cl ts sched i j P : beside cl ts sched i P → beside cl ts (sched ++ [j]) i P.
Proof.
  intros (s1 & s2 & -> & HP & H). exists s1, (s2 ++ [j]). split; [by rewrite app_assoc|]. split; [done|].
  destruct H as [?|H]; [by left|]. right. by destruct s2.
Qed.
Lemma beside_before cl ts sched i (P : gmap string nat → Prop) : P (n_table (nrun cl (ninit ts) sched)) → beside cl ts (sched ++ [i]) i P.
Proof. intros HP. exists sched, [i]. split; [done|]. split; [done|]. by right. Qed.
Lemma beside_after cl ts sched i (P : gmap string nat → Prop) : P (n_table (nrun cl (ninit ts) (sched ++ [i]))) → beside cl ts (sched ++ [i]) i P.
Proof. intros HP. exists (sched ++ [i]), []. split; [by rewrite app_nil_r|]. split; [done|]. left. by rewrite last_snoc. Qed.

Lemma given_beside cl ts sched i t o : unbegun ts → n_threads (nrun cl (ninit ts) sched) !! i = Some t →
  (given (nt_pc t) = Some o ∨ ∃ k, nt_pc t = PEmit o k) → beside cl ts sched i (λ tbl, tbl !! nt_name t = Some o).
Proof.
  intros Hts. revert i t o. induction sched as [|j sched IH] using rev_ind; intros i t o Hi Hg.
  { cbn in Hi. unfold unbegun in Hts. rewrite Forall_lookup in Hts. rewrite (Hts _ _ Hi) in Hg. destruct Hg as [|[]]; done. }
  pose proof (beside_after cl ts sched j) as Haft. rewrite nrun_snoc in Hi, Haft.
  set (s := nrun cl (ninit ts) sched) in *. revert Hi Haft.
  destruct (nstep_sums cl s j) as [->|(t0 & pc' & Ht0 & S & _ & _)]; [intros Hi _; apply beside_snoc; by apply IH|].
  revert S. generalize (nstep cl s j). intros s' S Hi Haft.
  destruct (nsum2_threads _ _ _ _ _ _ _ _ Ht0 S Hi) as [[E ->]|[Hne Hi']]; [|apply beside_snoc; by apply IH].
  subst j. cbn in Hg |- *. destruct Hg as [Hg|[k Hg]].
  - destruct (ns_given _ _ _ _ _ _ S _ Hg) as [H|[H|H]].
    + apply beside_snoc. eapply IH; eauto.
    + apply beside_snoc. eapply IH; eauto.
    + by apply beside_before.
  - destruct (ns_pemit _ _ _ _ _ _ S _ _ Hg) as [_ E]. apply (Haft (λ tbl, tbl !! nt_name t0 = Some o)). rewrite E. by rewrite lookup_insert.
Qed.

Lemma given_registered_proof : given_registered.
Proof.
  intros cl ts sched i t o Hts Hi Hg. split; [|apply given_beside; [done|done|by left]].
  eapply (ni_thread _ _ (ninv_run cl ts sched Hts)); [exact Hi|]. by destruct (nt_pc t).
Qed.

Lemma denied_unregistered_proof : denied_unregistered.
Proof.
  assert (H : ∀ cl ts sched i t, unbegun ts → n_threads (nrun cl (ninit ts) sched) !! i = Some t → (nt_pc t = PCheck ∨ nt_pc t = PDenied) →
    is_Some (nt_client t) ∧ beside cl ts sched i (λ tbl, tbl !! nt_name t = None)).
  { intros cl ts sched i t Hts. revert i t. induction sched as [|j sched IH] using rev_ind; intros i t Hi Hg.
    { cbn in Hi. unfold unbegun in Hts. rewrite Forall_lookup in Hts. rewrite (Hts _ _ Hi) in Hg. by destruct Hg. }
    rewrite nrun_snoc in Hi. set (s := nrun cl (ninit ts) sched) in *. revert Hi.
    destruct (nstep_sums cl s j) as [->|(t0 & pc' & Ht0 & S & _ & _)]; [intros Hi; destruct (IH _ _ Hi Hg); split; [done|by apply beside_snoc]|].
    revert S. generalize (nstep cl s j). intros s' S Hi.
    destruct (nsum2_threads _ _ _ _ _ _ _ _ Ht0 S Hi) as [[E ->]|[Hne Hi']]; [|destruct (IH _ _ Hi' Hg); split; [done|by apply beside_snoc]].
    subst j. cbn in Hg |- *. destruct Hg as [Hg|Hg].
    - destruct (ns_check _ _ _ _ _ _ S Hg) as [Hc Hn]. split; [done|]. by apply beside_before.
    - destruct (ns_denied _ _ _ _ _ _ S Hg) as [Hpc _]. destruct (IH _ _ Ht0 (or_introl Hpc)). split; [done|by apply beside_snoc]. }
  intros cl ts sched i t Hts Hi Hpc. split; [|eapply H; eauto].
  clear H. revert i t Hi Hpc. induction sched as [|j sched IH] using rev_ind; intros i t Hi Hg.
  { cbn in Hi. unfold unbegun in Hts. rewrite Forall_lookup in Hts. rewrite (Hts _ _ Hi) in Hg. done. }
  rewrite nrun_snoc in Hi. set (s := nrun cl (ninit ts) sched) in *. revert Hi.
  destruct (nstep_sums cl s j) as [->|(t0 & pc' & Ht0 & S & _ & _)]; [intros Hi; by eapply IH|].
  revert S. generalize (nstep cl s j). intros s' S Hi.
  destruct (nsum2_threads _ _ _ _ _ _ _ _ Ht0 S Hi) as [[E ->]|[Hne Hi']]; [|by eapply IH].
  cbn in Hg |- *. by apply (ns_denied _ _ _ _ _ _ S Hg).
Qed.

Lemma table_sound_proof : table_sound.
Proof.
  intros cl ts sched n o Hts s Hn. pose proof (ninv_run cl ts sched Hts) as I. fold s in I.
  destruct (ni_table _ _ I _ _ Hn) as (x & Hx & E). exists x. split; [done|]. split; [done|].
  intros p Hp. pose proof (ni_children _ _ I _ _ _ _ Hn Hx Hp) as Hc. unfold children in Hc.
  destruct (n_children s !! p) as [c|]; [eauto|]. cbn in Hc. by apply elem_of_empty in Hc.
Qed.

Lemma announced_once_proof : announced_once.
Proof.
  intros cl ts sched Hts s. pose proof (ninv_run cl ts sched Hts) as I. fold s in I.
  split; [exact (ni_nodup _ _ I)|]. split; [exact (ni_announced _ _ I)|].
  clear I. subst s. induction sched as [|j sched IH] using rev_ind; intros o Ho.
  { cbn in Ho. by apply elem_of_nil in Ho. }
  pose proof (ninv_run cl ts sched Hts) as I. pose proof (given_beside cl ts sched j) as Hb.
  rewrite nrun_snoc in Ho |- *. set (s := nrun cl (ninit ts) sched) in *. revert Ho.
  destruct (nstep_cases cl s j) as [->|(t & Ht & He)].
  { intros Ho. destruct (IH _ Ho) as (x & Hx & s1 & s2 & E & H). exists x. split; [done|]. exists s1, (s2 ++ [j]). by rewrite E, app_assoc. }
  revert He. generalize (nstep cl s j). intros s' He Ho.
  assert (Hob : o ∈ n_events s ∨ ∃ k, nt_pc t = PEmit o k).
  { destruct (neff_sum _ _ _ _ _ He) as [->|(pc' & S)]; [by left|].
    destruct (ns_events _ _ _ _ _ _ S) as [E|(o' & k & Hpc & E)]; rewrite E in Ho; [by left|].
    apply elem_of_app in Ho as [Ho|Ho]; [by left|]. apply elem_of_list_singleton in Ho as ->. eauto. }
  destruct Hob as [Hev|(k & Hpc)].
  - destruct (IH _ Hev) as (x & Hx & s1 & s2 & E & H). destruct (neff_objs _ _ _ _ _ _ _ He Hx) as (x' & Hx' & En & _).
    exists x'. split; [done|]. exists s1, (s2 ++ [j]). rewrite En. split; [by rewrite E, app_assoc|done].
  - destruct (Hb t o Hts Ht) as (s1 & s2 & E & H & _); [eauto|].
    destruct (ni_thread _ _ I j t o Ht) as (x & Hx & Ex); [by rewrite Hpc|].
    destruct (neff_objs _ _ _ _ _ _ _ He Hx) as (x' & Hx' & En & _).
    exists x'. split; [done|]. exists s1, (s2 ++ [j]). split; [by rewrite E, app_assoc|]. congruence.
Qed.

(** ** Creations that do not overlap *)
Record nonce (n : string) (s : nstate) : Prop := NOnce {
  no_some : ∀ o, n_table s !! n = Some o → (∀ o' x, n_objs s !! o' = Some x → no_name x = n → o' = o) ∧
    (∀ i t, n_threads s !! i = Some t → nt_name t = n → creating (nt_pc t) = false);
  no_none : n_table s !! n = None → ∀ o x, n_objs s !! o = Some x → no_name x = n →
    ∃ i t, n_threads s !! i = Some t ∧ nt_name t = n ∧ early (nt_pc t) = Some o;
  no_given : ∀ i t o, n_threads s !! i = Some t → nt_name t = n → given (nt_pc t) = Some o → n_table s !! n = Some o;
  no_emit : ∀ i t o k, n_threads s !! i = Some t → nt_name t = n → nt_pc t = PEmit o k → n_table s !! n = Some o }.

Lemma early_creating pc o : early pc = Some o → creating pc = true.
Proof. by destruct pc. Qed.

Lemma nonce_step n s i : ninv false s →
  (∀ i j t u, n_threads s !! i = Some t → n_threads s !! j = Some u → nt_name t = n → nt_name u = n →
     creating (nt_pc t) = true → creating (nt_pc u) = true → i = j) →
  nonce n s → nonce n (nstep false s i).
Proof.
  intros I Hone J. destruct (nstep_sums false s i) as [->|(t & pc' & Ht & S & He & Hsame)]; [done|].
  revert S He Hsame. generalize (nstep false s i). intros s' S He Hsame.
  pose proof (λ o x, neff_objs_back _ _ _ _ _ o x He) as Hbk.
  pose proof (λ j u, nsum2_threads _ _ _ _ _ _ j u Ht S) as Hth.
  pose proof (λ j, nsum2_other _ _ _ _ _ _ j S) as Hoth.
  destruct (decide (nt_name t = n)) as [En|Hn].
  2: { assert (Etab : n_table s' !! n = n_table s !! n) by (destruct (ns_table_keep _ _ _ _ _ _ S n) as [?|[-> _]]; done).
    assert (Hth' : ∀ j u, n_threads s' !! j = Some u → nt_name u = n → n_threads s !! j = Some u).
    { intros j u Hj Hu. destruct (Hth _ _ Hj) as [[_ ->]|[_ ?]]; [|done]. cbn in Hu. done. }
    assert (Hob' : ∀ o x, n_objs s' !! o = Some x → no_name x = n → ∃ x', n_objs s !! o = Some x' ∧ no_name x' = n).
    { intros o x Hx Hnx. destruct (Hbk _ _ Hx) as [(x' & Hx' & E & _)|(_ & E & _)]; [|congruence]. exists x'. split; congruence. }
    constructor.
    - intros o Ho. rewrite Etab in Ho. destruct (no_some _ _ J _ Ho) as [H1 H2]. split.
      + intros o' x Hx Hnx. destruct (Hob' _ _ Hx Hnx) as (x' & Hx' & E). by eapply H1.
      + intros j u Hj Hu. by eapply H2; eauto.
    - intros Ho o x Hx Hnx. rewrite Etab in Ho. destruct (Hob' _ _ Hx Hnx) as (x' & Hx' & E).
      destruct (no_none _ _ J Ho _ _ Hx' E) as (j & u & Hj & Hu & He'). exists j, u. split; [|done].
      rewrite Hoth; [done|]. intros ->. congruence.
    - intros j u o Hj Hu. rewrite Etab. by eapply (no_given _ _ J); eauto.
    - intros j u o k Hj Hu. rewrite Etab. by eapply (no_emit _ _ J); eauto. }
  destruct (n_table s !! n) as [o0|] eqn:Htab.
  - destruct (no_some _ _ J _ Htab) as [H1 H2]. pose proof (H2 _ _ Ht En) as Hcr.
    assert (Etab : n_table s' !! n = Some o0).
    { destruct (ns_table_keep _ _ _ _ _ _ S n) as [E|(_ & [(o & k & Hpc & _)|(o & Hpc)])]; [congruence|by rewrite Hpc in Hcr|].
      pose proof (ni_cleanup _ _ I _ _ o Ht (or_intror Hpc)). done. }
    constructor.
    + intros o Ho. assert (o = o0) as -> by congruence. split.
      * intros o' x Hx Hnx. destruct (Hbk _ _ Hx) as [(x' & Hx' & E & _)|(_ & _ & p & k & Hpc & _)]; [|by rewrite Hpc in Hcr].
        eapply H1; [exact Hx'|congruence].
      * intros j u Hj Hu. destruct (Hth _ _ Hj) as [[-> ->]|[_ Hj']]; [|by eapply H2]. cbn.
        destruct (creating pc') eqn:E; [|done]. destruct (ns_creating _ _ _ _ _ _ S E) as [?|?]; congruence.
    + congruence.
    + intros j u o Hj Hu Hg. rewrite Etab, <-Htab. destruct (Hth _ _ Hj) as [[-> ->]|[_ Hj']]; [|by eapply (no_given _ _ J)].
      cbn in Hg. destruct (ns_given _ _ _ _ _ _ S _ Hg) as [H|[[k H]|H]]; [by eapply (no_given _ _ J)|by eapply (no_emit _ _ J)|congruence].
    + intros j u o k Hj Hu Hpc. rewrite Etab, <-Htab. destruct (Hth _ _ Hj) as [[-> ->]|[_ Hj']]; [|by eapply (no_emit _ _ J)].
      cbn in Hpc. destruct (ns_pemit _ _ _ _ _ _ S _ _ Hpc) as [E _]. by rewrite E in Hcr.
  - assert (Hgn : ∀ j u o, n_threads s !! j = Some u → nt_name u = n → given (nt_pc u) = Some o → False).
    { intros j u o Hj Hu Hg. pose proof (no_given _ _ J _ _ _ Hj Hu Hg). congruence. }
    assert (Hen : ∀ j u o k, n_threads s !! j = Some u → nt_name u = n → nt_pc u = PEmit o k → False).
    { intros j u o k Hj Hu Hg. pose proof (no_emit _ _ J _ _ _ _ Hj Hu Hg). congruence. }
    destruct (ns_table_keep _ _ _ _ _ _ S n) as [Etab|(_ & [(o & k & Hpc & ->)|(o & Hpc)])].
    + rewrite Htab in Etab. constructor.
      * congruence.
      * intros _ o x Hx Hnx. destruct (Hbk _ _ Hx) as [(x' & Hx' & E & _)|(-> & _ & p & k & Hpc & _)].
        -- destruct (no_none _ _ J Htab _ _ Hx') as (j & u & Hj & Hu & He'); [congruence|].
           destruct (decide (j = i)) as [Eji|Hji].
           ++ subst j. assert (u = t) as -> by congruence. exists i, (nwith t pc'). split; [done|]. split; [done|]. cbn.
              destruct (ns_early_keep _ _ _ _ _ _ S _ He') as [?|Hpe]; [done|].
              destruct (ns_pemit _ _ _ _ _ _ S _ _ Hpe) as [_ Ens]. rewrite Ens, En, lookup_insert in Etab. done.
           ++ exists j, u. rewrite Hoth by done. done.
        -- exists i, (nwith t pc'). split; [done|]. split; [done|]. cbn. by eapply (ns_alloc_early _ _ _ _ _ _ S).
      * intros j u o Hj Hu Hg. exfalso. destruct (Hth _ _ Hj) as [[-> ->]|[_ Hj']]; [|by eapply Hgn].
        cbn in Hg. destruct (ns_given _ _ _ _ _ _ S _ Hg) as [H|[[k H]|H]]; [by eapply Hgn|by eapply Hen|congruence].
      * intros j u o k Hj Hu Hpc. exfalso. destruct (Hth _ _ Hj) as [[-> ->]|[_ Hj']]; [|by eapply Hen].
        cbn in Hpc. destruct (ns_pemit _ _ _ _ _ _ S _ _ Hpc) as [_ E]. rewrite E, En, lookup_insert in Etab. done.
    + destruct (ns_pemit _ _ _ _ _ _ S _ _ eq_refl) as [_ E]. rewrite En in E.
      assert (Etab : n_table s' !! n = Some o) by (by rewrite E, lookup_insert).
      constructor.
      * intros o0 Ho0. assert (o0 = o) as -> by congruence. split.
        -- intros o' x Hx Hnx. destruct (Hbk _ _ Hx) as [(x' & Hx' & E' & _)|(_ & _ & p & k' & Hpc' & _)]; [|congruence].
           destruct (no_none _ _ J Htab _ _ Hx') as (j & u & Hj & Hu & He'); [congruence|].
           assert (i = j) as <- by (eapply Hone; [exact Ht|exact Hj|done|done|by rewrite Hpc|by eapply early_creating]).
           assert (u = t) as -> by congruence. rewrite Hpc in He'. cbn in He'. congruence.
        -- intros j u Hj Hu. destruct (Hth _ _ Hj) as [[-> ->]|[Hji Hj']]; [done|].
           destruct (creating (nt_pc u)) eqn:Ec; [|done]. destruct Hji. eapply Hone; [exact Hj'|exact Ht|done|done|done|by rewrite Hpc].
      * congruence.
      * intros j u o' Hj Hu Hg. destruct (Hth _ _ Hj) as [[-> ->]|[_ Hj']]; [done|]. exfalso. by eapply Hgn.
      * intros j u o' k' Hj Hu Hpc'. destruct (Hth _ _ Hj) as [[-> ->]|[_ Hj']]; [cbn in Hpc'; congruence|]. exfalso. by eapply Hen.
    + pose proof (ni_cleanup _ _ I _ _ o Ht (or_intror Hpc)). done.
Qed.

Lemma created_once_proof : created_once.
Proof.
  intros ts sched n Hts Hone.
  assert (J : nonce n (nrun false (ninit ts) sched)).
  { induction sched as [|j sched IH] using rev_ind.
    - assert (H : ∀ i t, ts !! i = Some t → nt_pc t = PStart) by (intros i t Hi; unfold unbegun in Hts; rewrite Forall_lookup in Hts; eauto).
      constructor; cbn.
      + intros o. rewrite lookup_empty. done.
      + done.
      + intros i t o Hi. by rewrite (H _ _ Hi).
      + intros i t o k Hi. by rewrite (H _ _ Hi).
    - rewrite nrun_snoc. apply nonce_step; [by apply ninv_run| |].
      + intros i k t u. apply (Hone sched [j]). done.
      + apply IH. intros s1 s2 i k t u E. apply (Hone s1 (s2 ++ [j])). by rewrite E, app_assoc. }
  pose proof (λ i j t u, Hone sched [] i j t u (eq_sym (app_nil_r _))) as Hone'.
  cbv zeta. set (s := nrun false (ninit ts) sched) in *.
  split.
  - intros o o' x x' Hx Hx' Hn Hn'. destruct (n_table s !! n) as [o0|] eqn:Htab.
    + destruct (no_some _ _ J _ Htab) as [H1 _]. rewrite (H1 _ _ Hx Hn), (H1 _ _ Hx' Hn'). done.
    + destruct (no_none _ _ J Htab _ _ Hx Hn) as (i & t & Hi & Ht & He), (no_none _ _ J Htab _ _ Hx' Hn') as (j & u & Hj & Hu & He').
      assert (i = j) as <- by (eapply Hone'; [exact Hi|exact Hj|done|done|by eapply early_creating|by eapply early_creating]).
      congruence.
  - intros i j t u o o' Hi Hj Ht Hu Hg Hg'. pose proof (no_given _ _ J _ _ _ Hi Ht Hg). pose proof (no_given _ _ J _ _ _ Hj Hu Hg').
    split; [congruence|done].
Qed.

(** ** A registered namespace stays *)
Lemma stays_proof : stays.
Proof.
  intros cl ts s1 s2 n o Hts a Htab Hcr Hcl b.
  assert (K : n_table b !! n = Some o ∧
    (∀ i t, n_threads b !! i = Some t → nt_name t = n → creating (nt_pc t) = false ∧ ∀ o' k, nt_pc t = PEmit o' k → o' = o) ∧
    (cl = false ∨ (∀ o' x, n_objs b !! o' = Some x → no_name x = n → o' = o) ∧
      (∀ i t o', n_threads b !! i = Some t → nt_name t = n → nt_pc t ≠ PClose o' ∧ nt_pc t ≠ PDelete o')) ∧
    (∀ i t u o', n_threads a !! i = Some t → nt_name t = n → given (nt_pc t) = None →
       n_threads b !! i = Some u → nt_name u = n ∧ (given (nt_pc u) = Some o' → o' = o))).
  2: { destruct K as (K1 & _ & _ & K4). split; [done|]. intros i t u o' Hi Ht Hg Hu Hgu. by eapply K4. }
  subst b. induction s2 as [|j s2 IH] using rev_ind.
  { split; [done|]. split; [done|]. split; [destruct Hcl as [?|(?&?&_)]; auto|].
    intros i t u o' Hi Ht Hg Hu. cbn in Hu. assert (u = t) as -> by congruence. split; [done|]. intros; congruence. }
  destruct IH as (K1 & K2 & K3 & K4).
  { destruct Hcl as [?|(?&?&H)]; [by left|right]. split; [done|]. split; [done|]. intros sa sb E. apply (H sa (sb ++ [j])). by rewrite E, app_assoc. }
  assert (Hlive : cl = false ∨ ∃ x, n_objs (nrun cl a s2) !! o = Some x ∧ (no_socks x ≠ ∅ ∨ no_parent x = None)).
  { destruct Hcl as [?|(_&_&H)]; [by left|right]. by apply (H s2 [j]). }
  assert (I : ninv cl (nrun cl a s2)). { subst a. rewrite <-nrun_app. by apply ninv_run. }
  rewrite nrun_snoc. set (s := nrun cl a s2) in *.
  destruct (nstep_sums cl s j) as [->|(t & pc' & Ht & S & He & Hsame)]; [done|].
  revert S He Hsame. generalize (nstep cl s j). intros s' S He Hsame.
  pose proof (λ o x, neff_objs_back _ _ _ _ _ o x He) as Hbk.
  pose proof (λ k u, nsum2_threads _ _ _ _ _ _ k u Ht S) as Hth.
  assert (Hcr' : nt_name t = n → creating (nt_pc t) = false) by (intros E; by eapply K2).
  assert (Hde : nt_name t = n → ∀ o', nt_pc t = PDelete o' ∨ nt_pc t = PClose o' → False).
  { intros E o' Hpc. destruct K3 as [K3|[_ K3]].
    - assert (H : cl = true) by (eapply (ni_cleanup _ _ I _ _ o' Ht); tauto). congruence.
    - destruct (K3 _ _ o' Ht E) as [? ?]. tauto. }
  split; [|split; [|split]].
  - destruct (ns_table_keep _ _ _ _ _ _ S n) as [E|(-> & [(o1 & k & Hpc & _)|(o1 & Hpc)])]; [congruence| |].
    + specialize (Hcr' eq_refl). rewrite Hpc in Hcr'. done.
    + exfalso. eapply Hde; eauto.
  - intros i u Hi Hu. destruct (Hth _ _ Hi) as [[-> ->]|[_ Hi']]; [|by eapply K2]. cbn in Hu |- *. split.
    + destruct (creating pc') eqn:E; [|done]. destruct (ns_creating _ _ _ _ _ _ S E) as [H|H]; [|congruence].
      rewrite Hcr' in H by done. done.
    + intros o' k Hpc. destruct (ns_pemit _ _ _ _ _ _ S _ _ Hpc) as [E _]. specialize (Hcr' Hu). rewrite E in Hcr'. done.
  - destruct K3 as [K3|[K3 K3']]; [by left|right]. split.
    + intros o' x Hx Hnx. destruct (Hbk _ _ Hx) as [(x' & Hx' & E & _)|(_ & E & p & k & Hpc & _)]; [eapply K3; [exact Hx'|congruence]|].
      specialize (Hcr' ltac:(congruence)). rewrite Hpc in Hcr'. done.
    + intros i u o' Hi Hu. destruct (Hth _ _ Hi) as [[-> ->]|[_ Hi']]; [|by eapply K3']. cbn in Hu |- *. split; intros Hpc.
      * destruct (ns_close _ _ _ _ _ _ S _ Hpc) as (Ec & Hl & x & Hx & Hp & Hs).
        destruct (ni_thread _ _ I _ _ o' Ht) as (y & Hy & Ey); [by rewrite Hl|].
        assert (o' = o) as -> by (eapply K3; [exact Hy|congruence]).
        destruct Hlive as [?|(z & Hz & Hzz)]; [congruence|]. assert (z = x) as -> by congruence.
        destruct Hzz as [?|E]; [done|]. rewrite E in Hp. by destruct Hp.
      * pose proof (ns_pdelete _ _ _ _ _ _ S _ Hpc) as E. eapply Hde; eauto.
  - intros i t0 u o' Hi Ht0 Hg Hu. destruct (Hth _ _ Hu) as [[-> ->]|[_ Hi']]; [|by eapply K4].
    destruct (K4 _ _ _ o' Hi Ht0 Hg Ht) as [K5 K6]. cbn. split; [done|]. intros Hgu.
    destruct (ns_given _ _ _ _ _ _ S _ Hgu) as [H|[[k H]|H]]; [auto| |congruence].
    by eapply K2.
Qed.

(** ** The sockets of a namespace *)
Lemma nclients cl ts sched i t : n_threads (nrun cl (ninit ts) sched) !! i = Some t → ∃ t0, ts !! i = Some t0 ∧ nt_client t0 = nt_client t.
Proof.
  revert i t. induction sched as [|j sched IH] using rev_ind; intros i t Hi; [eauto|].
  rewrite nrun_snoc in Hi. destruct (nstep_sums cl (nrun cl (ninit ts) sched) j) as [E|(t0 & pc' & Ht0 & S & _ & _)]; [rewrite E in Hi; eauto|].
  destruct (nsum2_threads _ _ _ _ _ _ _ _ Ht0 S Hi) as [[-> ->]|[_ Hi']]; [|eauto]. destruct (IH _ _ Ht0) as (u & Hu & E). eauto.
Qed.
Definition nin (s : nstate) (o : nat) (id : string) : Prop :=
  ∃ i t, n_threads s !! i = Some t ∧ nt_client t = Some (id, true) ∧ (nt_pc t = PIn o ∨ nt_pc t = PRemove o).

(** A step of a goroutine that is not at a socket operation. *)
Lemma nin_same s s' i t pc' : n_threads s !! i = Some t → n_threads s' = <[i := nwith t pc']> (n_threads s) →
  (∀ o id, nt_client t = Some (id, true) → (pc' = PIn o ∨ pc' = PRemove o) ↔ (nt_pc t = PIn o ∨ nt_pc t = PRemove o)) →
  ∀ o id, nin s' o id ↔ nin s o id.
Proof.
  intros Ht Hth H o id. split; intros (j & u & Hj & Hu & Hpc).
  - rewrite Hth in Hj. destruct (decide (j = i)) as [->|Hne].
    + rewrite list_lookup_insert in Hj by (by eapply lookup_lt_Some). injection Hj as <-. cbn in Hu, Hpc. exists i, t. split; [done|]. split; [done|]. by eapply H.
    + rewrite list_lookup_insert_ne in Hj by done. exists j, u. done.
  - destruct (decide (j = i)) as [->|Hne].
    + assert (u = t) as -> by congruence. exists i, (nwith t pc'). rewrite Hth, list_lookup_insert by (by eapply lookup_lt_Some).
      split; [done|]. split; [done|]. cbn. by eapply H.
    + exists j, u. rewrite Hth, list_lookup_insert_ne by done. done.
Qed.

Lemma nin_fold s o id :
  (∃ i t, n_threads s !! i = Some t ∧ nt_client t = Some (id, true) ∧ (nt_pc t = PIn o ∨ nt_pc t = PRemove o)) = nin s o id.
Proof. done. Qed.
Lemma nlocal_in cl s t pc' o id : nlocal cl s t pc' → nt_client t = Some (id, true) →
  (pc' = PIn o ∨ pc' = PRemove o) ↔ (nt_pc t = PIn o ∨ nt_pc t = PRemove o).
Proof.
  intros Hl Hc. destruct pc'; cbn in Hl; (split; intros [E|E]); try discriminate; 
    try (repeat match goal with H : _ ∨ _ |- _ => destruct H | H : _ ∧ _ |- _ => destruct H | H : ∃ _, _ |- _ => destruct H end; congruence); try done.
  - injection E as <-. destruct Hl as [?|[_ [? ?]]]; [by left|congruence].
  - right. destruct Hl as [?|[? _]]; congruence.
Qed.

Lemma sockets_exact_proof : sockets_exact.
Proof.
  intros cl ts sched Hts Hids. cbv zeta.
  induction sched as [|j sched IH] using rev_ind; [done|].
  pose proof (ninv_run cl ts sched Hts) as I.
  assert (Huniq : ∀ i k t u a b id, n_threads (nrun cl (ninit ts) sched) !! i = Some t → n_threads (nrun cl (ninit ts) sched) !! k = Some u →
    nt_client t = Some (id, a) → nt_client u = Some (id, b) → i = k).
  { intros i k t u a b id Hi Hk Ha Hb. destruct (nclients _ _ _ _ _ Hi) as (t0 & Ht0 & E), (nclients _ _ _ _ _ Hk) as (u0 & Hu0 & E').
    eapply Hids; [exact Ht0|exact Hu0|rewrite E; exact Ha|rewrite E'; exact Hb]. }
  rewrite nrun_snoc. set (s := nrun cl (ninit ts) sched) in *.
  destruct (nstep_cases cl s j) as [->|(t & Ht & He)]; [exact IH|].
  revert He. generalize (nstep cl s j). intros s' He.
  destruct He as [|pc' Hl Hnr|p k pc' Hpc ->|p o k Hpc|o k Hpc|o k Hpc|o id Hpc Hc|o id b Hpc Hc|o Hpc|o Hpc|o p Hpc Hp]; [exact IH|..].
  - intros o x id Hx. eapply iff_trans; [by apply IH|symmetry; eapply (nin_same s _ j t pc'); [done|reflexivity|]].
    intros o' id' Hc. by eapply nlocal_in.
  - intros o x id Hx. eapply iff_trans; [|symmetry; eapply (nin_same s _ j t); [done|reflexivity|intros o' id' Hc; rewrite Hpc; destruct p; split; by intros [?|?]]].
    cbn in Hx. apply lookup_app_Some in Hx as [Hx|[Hle Hx]]; [by apply IH|].
    destruct (o - length (n_objs s)) as [|m] eqn:Hm; [|by destruct m]. cbn in Hx. injection Hx as <-. cbn.
    split; [intros E; by apply elem_of_empty in E|]. intros (i & u & Hi & _ & Hu). exfalso.
    destruct (ni_thread _ _ I _ _ o Hi) as (y & Hy & _); [by destruct Hu as [-> | ->]|]. apply lookup_lt_Some in Hy. lia.
  - intros o' x id Hx. eapply iff_trans; [|symmetry; eapply (nin_same s _ j t); [done|reflexivity|intros; rewrite Hpc; split; by intros [?|?]]]. by apply IH.
  - intros o' x id Hx. eapply iff_trans; [|symmetry; eapply (nin_same s _ j t); [done|reflexivity|intros; rewrite Hpc; split; by intros [?|?]]]. by apply IH.
  - intros o' x id Hx. eapply iff_trans; [|symmetry; eapply (nin_same s _ j t); [done|reflexivity|intros; rewrite Hpc; destruct k; split; by intros [?|?]]]. by apply IH.
  - (* admission *)
    intros o' x id' Hx. rewrite nin_fold. cbn in Hx.
    assert (Hnin : nin (nset (nobjs (alter (nsocks (λ x, {[id]} ∪ x)) o) s) j t (PIn o)) o' id' ↔ (o' = o ∧ id' = id) ∨ nin s o' id').
    { split.
      - intros (i & u & Hi & Hu & Hup). destruct (nset_threads (nobjs (alter (nsocks (λ x, {[id]} ∪ x)) o) s) j t (PIn o) i u Ht Hi) as [[-> ->]|[Hne Hi']].
        + left. cbn in Hu, Hup. naive_solver.
        + right. exists i, u. done.
      - intros [[-> ->]|(i & u & Hi & Hu & Hup)].
        + exists j, (nwith t (PIn o)). split; [by apply nset_same|]. split; [done|]. by left.
        + exists i, u. rewrite nset_other; [done|]. intros ->. assert (u = t) as -> by congruence. rewrite Hpc in Hup. naive_solver. }
    rewrite Hnin. destruct (decide (o = o')) as [<-|Hne].
    + rewrite list_lookup_alter in Hx. destruct (n_objs s !! o) as [y|] eqn:Hy; [|done]. cbn in Hx. injection Hx as <-. cbn.
      rewrite elem_of_union, elem_of_singleton. rewrite (IH _ _ id' Hy). unfold nin. naive_solver.
    + rewrite list_lookup_alter_ne in Hx by done. rewrite (IH _ _ id' Hx). unfold nin. naive_solver.
  - (* removal *)
    intros o' x id' Hx. rewrite nin_fold. cbn in Hx.
    assert (Hnin : nin (nset (nobjs (alter (nsocks (λ x, x ∖ {[id]})) o) s) j t (PLen o)) o' id' ↔ id' ≠ id ∧ nin s o' id').
    { split.
      - intros (i & u & Hi & Hu & Hup). destruct (nset_threads (nobjs (alter (nsocks (λ x, x ∖ {[id]})) o) s) j t (PLen o) i u Ht Hi) as [[-> ->]|[Hne Hi']].
        + cbn in Hup. naive_solver.
        + split; [|exists i, u; done]. intros ->. destruct Hne. exact (Huniq _ _ _ _ _ _ _ Hi' Ht Hu Hc).
      - intros [Hid (i & u & Hi & Hu & Hup)].
        exists i, u. rewrite nset_other; [done|]. intros ->. assert (u = t) as -> by congruence. congruence. }
    rewrite Hnin. destruct (decide (o = o')) as [<-|Hne].
    + rewrite list_lookup_alter in Hx. destruct (n_objs s !! o) as [y|] eqn:Hy; [|done]. cbn in Hx. injection Hx as <-. cbn.
      rewrite elem_of_difference, elem_of_singleton. rewrite (IH _ _ id' Hy). unfold nin. tauto.
    + rewrite list_lookup_alter_ne in Hx by done. rewrite (IH _ _ id' Hx). fold (nin s o' id'). split; [|tauto]. intros Hin. split; [|done].
      intros ->. destruct Hin as (i & u & Hi & Hu & Hup). assert (i = j) as -> by exact (Huniq _ _ _ _ _ _ _ Hi Ht Hu Hc).
      assert (u = t) as -> by congruence. rewrite Hpc in Hup. naive_solver.
  - intros o' x id Hx. eapply iff_trans; [|symmetry; eapply (nin_same s _ j t); [done|reflexivity|intros; rewrite Hpc; split; by intros [?|?]]]. cbn in Hx.
    destruct (decide (o = o')) as [<-|Hne].
    + rewrite list_lookup_alter in Hx. destruct (n_objs s !! o) as [y|] eqn:Hy; [|done]. cbn in Hx. injection Hx as <-. cbn. by apply IH.
    + rewrite list_lookup_alter_ne in Hx by done. by apply IH.
  - intros o' x id Hx. eapply iff_trans; [|symmetry; eapply (nin_same s _ j t); [done|reflexivity|intros; rewrite Hpc; split; by intros [?|?]]]. by apply IH.
  - intros o' x id Hx. eapply iff_trans; [|symmetry; eapply (nin_same s _ j t); [done|reflexivity|intros; rewrite Hpc; split; by intros [?|?]]]. by apply IH.
Qed.

(** ** Who creates a namespace *)
Definition nmaker (cl : bool) (t : nthread) (p : option nat) : Prop :=
  (is_Some (nt_client t) ∧ is_Some (nt_fn t) ∧ p = nt_fn t) ∨ (p = nt_rx t ∧ (cl = false → nt_client t = None)).
Record nmade (cl : bool) (s : nstate) : Prop := NMade {
  nm_reload : ∀ i t p, n_threads s !! i = Some t → nt_pc t = PReload p → is_Some (nt_client t) ∧ nt_fn t = Some p;
  nm_check : ∀ i t, n_threads s !! i = Some t → nt_pc t = PCheck → is_Some (nt_client t);
  nm_of : ∀ i t, cl = false → n_threads s !! i = Some t → is_Some (nt_client t) →
    (nt_pc t = POf ∨ ∃ o k, nt_pc t = PEmit o k) → is_Some (n_table s !! nt_name t);
  nm_alloc : ∀ i t p k, n_threads s !! i = Some t → nt_pc t = PAlloc p k → nmaker cl t p;
  nm_objs : ∀ o x, n_objs s !! o = Some x → ∃ i t, n_threads s !! i = Some t ∧ nt_name t = no_name x ∧ nmaker cl t (no_parent x) }.

(** Where the goroutine goes that looks the name up or asks the parents. *)
Lemma nstep_alloc cl s i t p k : n_threads s !! i = Some t → n_threads (nstep cl s i) !! i = Some (nwith t (PAlloc p k)) → nt_pc t ≠ PAlloc p k →
  (n_table s !! nt_name t = None ∧ nt_pc t = PReload (default 0 p) ∧ is_Some p) ∨
  (n_table s !! nt_name t = None ∧ p = nt_rx t ∧ ((nt_pc t = PStart ∧ nt_client t = None) ∨ nt_pc t = POf)).
Proof.
  intros Hi. unfold nstep. rewrite Hi. intros H Hne.
  assert (Hs : ∀ s0 pc, n_threads s0 = n_threads s → n_threads (nset s0 i t pc) !! i = Some (nwith t (PAlloc p k)) → pc = PAlloc p k).
  { intros s0 pc E. unfold nset; cbn. rewrite E, list_lookup_insert by (by eapply lookup_lt_Some). by intros [= ->]. }
  assert (Hid : n_threads s !! i = Some (nwith t (PAlloc p k)) → False).
  { rewrite Hi. intros [= E]. apply Hne. by rewrite E. }
  destruct (nt_pc t) as [| |q| |q k'|q o k'|o k'|o k'| |o|o|o|o|o|o|o|] eqn:Hpc.
  - destruct (nt_client t), (n_table s !! nt_name t); apply Hs in H; try done. injection H as <- _. right. auto.
  - destruct (nt_fn t); apply Hs in H; done.
  - destruct (n_table s !! nt_name t); apply Hs in H; try done. injection H as <- _. left. cbn. eauto.
  - destruct (n_table s !! nt_name t); apply Hs in H; try done. injection H as <- _. right. auto.
  - apply Hs in H; [|done]. by destruct q.
  - apply Hs in H; done.
  - apply Hs in H; done.
  - apply Hs in H; [by destruct k'|]. by destruct (_ && _).
  - by destruct Hid.
  - destruct (nt_client t) as [[? []]|]; [apply Hs in H; done..|by destruct Hid].
  - apply Hs in H; done.
  - destruct (nt_client t) as [[? ?]|]; [apply Hs in H; done|by destruct Hid].
  - destruct (n_objs s !! o) as [x|]; [destruct (_ && _)|]; apply Hs in H; done.
  - apply Hs in H; done.
  - apply Hs in H; done.
  - destruct (n_objs s !! o ≫= no_parent); apply Hs in H; done.
  - by destruct Hid.
Qed.
Lemma nstep_asks cl s i t pc : n_threads s !! i = Some t → n_threads (nstep cl s i) !! i = Some (nwith t pc) → nt_pc t ≠ pc →
  (∀ p, pc = PReload p → nt_pc t = PCheck ∧ nt_fn t = Some p) ∧
  (pc = POf → is_Some (n_table s !! nt_name t) ∨ ∃ o, nt_pc t = PEmit o false).
Proof.
  intros Hi. unfold nstep. rewrite Hi. intros H Hne.
  assert (Hs : ∀ s0 pc', n_threads s0 = n_threads s → n_threads (nset s0 i t pc') !! i = Some (nwith t pc) → pc' = pc).
  { intros s0 pc' E. unfold nset; cbn. rewrite E, list_lookup_insert by (by eapply lookup_lt_Some). by intros [= ->]. }
  assert (Hid : n_threads s !! i = Some (nwith t pc) → False).
  { rewrite Hi. intros [= E]. apply Hne. by rewrite E. }
  destruct (nt_pc t) as [| |q| |q k'|q o k'|o k'|o k'| |o|o|o|o|o|o|o|] eqn:Hpc.
  - destruct (nt_client t), (n_table s !! nt_name t); apply Hs in H as <-; try done; (split; [done|]); intros; try discriminate; eauto.
  - destruct (nt_fn t); apply Hs in H as <-; try done. split; [|done]. intros p [= ->]. done.
  - destruct (n_table s !! nt_name t); apply Hs in H as <-; try done. split; [done|]. eauto.
  - destruct (n_table s !! nt_name t); apply Hs in H as <-; done.
  - apply Hs in H as <-; [|done]. by destruct q.
  - apply Hs in H as <-; done.
  - apply Hs in H as <-; done.
  - apply Hs in H as <-; [|by destruct (_ && _)]. destruct k'; [done|]. split; [done|]. eauto.
  - by destruct Hid.
  - destruct (nt_client t) as [[? []]|]; [apply Hs in H as <-; done..|by destruct Hid].
  - apply Hs in H as <-; done.
  - destruct (nt_client t) as [[? ?]|]; [apply Hs in H as <-; done|by destruct Hid].
  - destruct (n_objs s !! o) as [x|]; [destruct (_ && _)|]; apply Hs in H as <-; done.
  - apply Hs in H as <-; done.
  - apply Hs in H as <-; done.
  - destruct (n_objs s !! o ≫= no_parent); apply Hs in H as <-; done.
  - by destruct Hid.
Qed.

Lemma nmade_step cl s i : ninv cl s → nmade cl s → nmade cl (nstep cl s i).
Proof.
  intros I M. destruct (nstep_sums cl s i) as [->|(t & pc' & Ht & S & He & Hsame)]; [done|].
  pose proof (nstep_alloc cl s i t) as Hal. pose proof (nstep_asks cl s i t) as Has.
  revert S He Hsame Hal Has. generalize (nstep cl s i). intros s' S He Hsame Hal Has.
  specialize (Has pc' Ht Hsame).
  pose proof (λ o x, neff_objs_back _ _ _ _ _ o x He) as Hbk.
  pose proof (λ j u, nsum2_threads _ _ _ _ _ _ j u Ht S) as Hth.
  pose proof (λ j, nsum2_other _ _ _ _ _ _ j S) as Hoth.
  assert (Hkeep : cl = false → ∀ n, is_Some (n_table s !! n) → is_Some (n_table s' !! n)).
  { intros Hcl n Hn. destruct (ns_table_keep _ _ _ _ _ _ S n) as [E|(-> & [(o & k & _ & E)|(o & Hpc)])]; [by rewrite E| |].
    - destruct (ns_pemit _ _ _ _ _ _ S _ _ E) as [_ ->]. rewrite lookup_insert. eauto.
    - pose proof (ni_cleanup _ _ I _ _ o Ht (or_intror Hpc)). congruence. }
  constructor.
  - intros j u p Hj Hp. destruct (Hth _ _ Hj) as [[-> ->]|[_ Hj']]; [|by eapply (nm_reload _ _ M)]. cbn in Hp |- *. subst pc'.
    destruct (decide (nt_pc t = PReload p)) as [E|E]; [by eapply (nm_reload _ _ M)|].
    destruct (Has E) as [Has' _]. destruct (Has' p eq_refl) as [E' ?]. split; [by eapply (nm_check _ _ M)|done].
  - intros j u Hj Hp. destruct (Hth _ _ Hj) as [[-> ->]|[_ Hj']]; [|by eapply (nm_check _ _ M)]. cbn in Hp |- *. by apply (ns_check _ _ _ _ _ _ S).
  - intros j u Hcl Hj Hc Hp. destruct (Hth _ _ Hj) as [[-> ->]|[_ Hj']]; [|apply Hkeep; [done|]; by eapply (nm_of _ _ M)]. cbn in Hp, Hc |- *.
    destruct Hp as [Hp|(o & k & Hp)].
    + apply Hkeep; [done|]. destruct (decide (nt_pc t = pc')) as [E|E]; [eapply (nm_of _ _ M); [done|exact Ht|done|left; congruence]|].
      destruct (Has E) as [_ Has']. destruct (Has' Hp) as [?|[o Ho]]; [done|]. eapply (nm_of _ _ M); [done|exact Ht|done|eauto].
    + destruct (ns_pemit _ _ _ _ _ _ S _ _ Hp) as [_ ->]. rewrite lookup_insert. eauto.
  - intros j u p k Hj Hp. destruct (Hth _ _ Hj) as [[-> ->]|[_ Hj']]; [|by eapply (nm_alloc _ _ M)]. cbn in Hp. subst pc'.
    change (nmaker cl t p). destruct (decide (nt_pc t = PAlloc p k)) as [E|E]; [by eapply (nm_alloc _ _ M)|].
    destruct (Hal p k Ht Hsame E) as [(_ & Hr & q & ->)|(Hn & -> & Hpc)].
    + destruct (nm_reload _ _ M _ _ _ Ht Hr) as [Hc Hf]. left. cbn in Hf. rewrite Hf. eauto.
    + right. split; [done|]. intros Hcl. destruct Hpc as [[_ ?]|Hpc]; [done|].
      destruct (nt_client t) as [c|] eqn:Hc; [|done]. exfalso.
      destruct (nm_of _ _ M _ _ Hcl Ht ltac:(by rewrite Hc) (or_introl Hpc)) as [o Ho]. congruence.
  - intros o x Hx. destruct (Hbk _ _ Hx) as [(x' & Hx' & E1 & E2)|(-> & E1 & p & k & Hpc & E2)].
    + destruct (nm_objs _ _ M _ _ Hx') as (j & u & Hj & Hu & Hm). rewrite E1 in Hu. rewrite E2 in Hm.
      destruct (decide (j = i)) as [E|Hne].
      * subst j. assert (u = t) as -> by congruence. exists i, (nwith t pc'). done.
      * exists j, u. rewrite Hoth by done. done.
    + exists i, (nwith t pc'). split; [done|]. split; [by rewrite E1|]. rewrite E2. change (nmaker cl t p). by eapply (nm_alloc _ _ M).
Qed.

Lemma created_by_proof : created_by.
Proof.
  intros cl ts sched o x Hts Hx.
  assert (M : nmade cl (nrun cl (ninit ts) sched)).
  { clear Hx. induction sched as [|j sched IH] using rev_ind.
    - assert (H : ∀ i t, ts !! i = Some t → nt_pc t = PStart) by (intros i t Hi; unfold unbegun in Hts; rewrite Forall_lookup in Hts; eauto).
      constructor; cbn.
      + intros i t p Hi. by rewrite (H _ _ Hi).
      + intros i t Hi. by rewrite (H _ _ Hi).
      + intros i t _ Hi _. rewrite (H _ _ Hi). by intros [?|(?&?&?)].
      + intros i t p k Hi. by rewrite (H _ _ Hi).
      + done.
    - rewrite nrun_snoc. apply nmade_step; [by apply ninv_run|done]. }
  destruct (nm_objs _ _ M _ _ Hx) as (i & t & Hi & Hn & Hm).
  assert (H : ∃ t0, ts !! i = Some t0 ∧ nt_name t0 = nt_name t ∧ nt_client t0 = nt_client t ∧ nt_fn t0 = nt_fn t ∧ nt_rx t0 = nt_rx t).
  { clear Hn Hm M Hx. revert i t Hi. induction sched as [|j sched IH] using rev_ind; intros i t Hi; [eauto 10|].
    rewrite nrun_snoc in Hi. destruct (nstep_sums cl (nrun cl (ninit ts) sched) j) as [E|(t0 & pc' & Ht0 & S & _ & _)]; [rewrite E in Hi; eauto|].
    destruct (nsum2_threads _ _ _ _ _ _ _ _ Ht0 S Hi) as [[-> ->]|[_ Hi']]; [|eauto]. exact (IH _ _ Ht0). }
  destruct H as (t0 & Ht0 & E1 & E2 & E3 & E4). exists i, t0. rewrite E1, E2, E3, E4. split; [done|]. split; [done|]. exact Hm.
Qed.
