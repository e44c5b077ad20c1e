(** Proofs about [Acks.v]: handlers that do not overlap. *)
From Verif Require Import Base GoTypes Acks AcksSpec AcksProofs.

(** The last goroutine of a list, in explicit records. *)
Lemma set_last i e a ar ts x y c : set_thr (length ts) y (ASt i e a ar (ts ++ [x]) c) = ASt i e a ar (ts ++ [y]) c.
Proof. unfold set_thr. cbn. f_equal. rewrite insert_app_r_alt by lia. by rewrite Nat.sub_diag. Qed.
Lemma run_last n i e a ar ts x c :
  run_thr (S n) (length ts) (ASt i e a ar (ts ++ [Some x]) c) = run_thr n (length ts) (step_thr (length ts) x (ASt i e a ar (ts ++ [Some x]) c)).
Proof. simpl. by rewrite list_lookup_middle. Qed.
Lemma run_stop n i e a ar ts c : run_thr n (length ts) (ASt i e a ar (ts ++ [None]) c) = ASt i e a ar (ts ++ [None]) c.
Proof. destruct n; [done|]. simpl. by rewrite list_lookup_middle. Qed.

(** What each event does as a whole. *)
Lemma serial_emit s k tmo :
  aserial1 s (EvEmit k tmo) =
    ASt (<[k.1 := next_id s k.1]> (a_ids s)) (a_ems s ++ [AEmission k.1 (next_id s k.1) [k] tmo])
      (<[(k, next_id s k.1) := length (a_ems s)]> (a_acks s))
      (if tmo then {[length (a_ems s)]} ∪ a_armed s else a_armed s) (a_thr s ++ [None]) (a_calls s).
Proof.
  unfold aserial1, ev_fuel. simpl astep. cbv beta iota. unfold start_emit, spawn. cbn [a_thr].
  assert (∀ x y, <[length (a_thr s):=x]> (a_thr s ++ [y]) = a_thr s ++ [x]) as Hins.
  { intros. rewrite insert_app_r_alt by lia. by rewrite Nat.sub_diag. }
  destruct tmo; cbn [run_thr a_thr]; rewrite list_lookup_middle by done; cbn [step_thr a_ems];
    rewrite list_lookup_middle by done; cbn [set_thr a_thr set_armed em_socks store_ack]; rewrite Hins, list_lookup_middle by done.
  - cbn [step_thr a_ems set_thr set_armed]. rewrite list_lookup_middle by done.
    cbn. rewrite !Hins, list_lookup_middle by done. unfold set_thr, store_ack, set_armed. cbn. by rewrite !Hins.
  - unfold set_thr, store_ack. cbn. by rewrite ?Hins.
Qed.
Definition store_all (ss : list (nat * nat)) (id : N) (cb : nat) (m : gmap ((nat * nat) * N) nat) : gmap ((nat * nat) * N) nat :=
  foldl (λ m k, <[(k, id) := cb]> m) m ss.
Lemma serial_store ss : ∀ n s cb em ts, a_ems s !! cb = Some em → a_thr s = ts ++ [Some (TStore cb ss)] → length ss < n →
  run_thr n (length ts) s = ASt (a_ids s) (a_ems s) (store_all ss (em_id em) cb (a_acks s)) (a_armed s) (ts ++ [None]) (a_calls s).
Proof.
  induction ss as [|k ss IH]; intros [|n] s cb em ts Hem Ht Hn; simpl in Hn; try lia; simpl; rewrite Ht, list_lookup_middle by done; simpl.
  - destruct n; simpl; [|rewrite Ht, list_lookup_insert by (rewrite app_length; simpl; lia)]; unfold set_thr; rewrite Ht; f_equal;
      rewrite insert_app_r_alt by lia; by rewrite Nat.sub_diag.
  - rewrite Hem. destruct ss as [|k' ss].
    + destruct n; simpl; [|rewrite Ht, list_lookup_insert by (rewrite app_length; simpl; lia)]; unfold set_thr; simpl; rewrite Ht; f_equal;
        rewrite insert_app_r_alt by lia; by rewrite Nat.sub_diag.
    + rewrite (IH n _ cb em ts); simpl in *; [done|done| |lia]. rewrite Ht, insert_app_r_alt by lia. by rewrite Nat.sub_diag.
Qed.
Lemma serial_broadcast s n ks :
  aserial1 s (EvBroadcast n ks) =
    ASt (<[n := next_id s n]> (a_ids s)) (a_ems s ++ [AEmission n (next_id s n) (pair n <$> ks) false])
      (store_all (pair n <$> ks) (next_id s n) (length (a_ems s)) (a_acks s)) (a_armed s) (a_thr s ++ [None]) (a_calls s).
Proof.
  unfold aserial1, ev_fuel. simpl astep. cbv beta iota.
  rewrite (serial_store (pair n <$> ks) _ _ (length (a_ems s)) (AEmission n (next_id s n) (pair n <$> ks) false)); simpl.
  - done.
  - by rewrite list_lookup_middle.
  - done.
  - rewrite fmap_length. lia.
Qed.
Definition acks_sound (s : ast) : Prop := ∀ k id cb, a_acks s !! (k, id) = Some cb → em_has s cb k id.
Lemma serial_recv s k id args : acks_sound s →
  aserial1 s (EvRecv k (Some id) args) =
    match a_acks s !! (k, id) with
    | Some cb =>
        ASt (a_ids s) (a_ems s) (delete (k, id) (a_acks s))
          (match em_timeout <$> a_ems s !! cb with Some true => a_armed s ∖ {[cb]} | _ => a_armed s end)
          (a_thr s ++ [None]) (a_calls s ++ [ACall cb k id (Some args)])
    | None => ASt (a_ids s) (a_ems s) (a_acks s) (a_armed s) (a_thr s ++ [None]) (a_calls s)
    end.
Proof.
  intros Hs. destruct s as [i e a ar ts c]. unfold aserial1, ev_fuel. simpl astep. cbv beta iota. unfold spawn. cbn [a_ids a_ems a_acks a_armed a_thr a_calls] in *.
  rewrite run_last. cbn [step_thr a_acks a_ems].
  destruct (a !! (k, id)) as [cb|] eqn:E.
  - destruct (Hs _ _ _ E) as (em&Hem&_). cbn [a_ems] in Hem. rewrite Hem, set_last. simpl (em_timeout <$> _).
    destruct (em_timeout em).
    + rewrite run_last. unfold step_thr, set_armed. cbn [a_ids a_ems a_acks a_armed a_thr a_calls]. rewrite set_last.
      rewrite run_last. unfold step_thr, log_call. cbn [a_ids a_ems a_acks a_armed a_thr a_calls]. rewrite set_last.
      rewrite run_last. unfold step_thr, del_ack. cbn [a_ids a_ems a_acks a_armed a_thr a_calls]. by rewrite set_last.
    + rewrite run_last. unfold step_thr, log_call. cbn [a_ids a_ems a_acks a_armed a_thr a_calls]. rewrite set_last.
      rewrite run_last. unfold step_thr, del_ack. cbn [a_ids a_ems a_acks a_armed a_thr a_calls]. by rewrite set_last, run_stop.
  - by rewrite set_last, run_stop.
Qed.
Lemma serial_recv_none s k args : aserial1 s (EvRecv k None args) = s.
Proof. unfold aserial1. cbn [ev_label astep ev_fuel run_thr]. by rewrite lookup_ge_None_2. Qed.
Lemma serial_expire s cb em k : a_ems s !! cb = Some em → em_socks em = [k] →
  aserial1 s (EvExpire cb) =
    if decide (cb ∈ a_armed s) then
      ASt (a_ids s) (a_ems s) (delete (k, em_id em) (a_acks s)) (a_armed s ∖ {[cb]})
        (a_thr s ++ [None]) (a_calls s ++ [ACall cb k (em_id em) None])
    else s.
Proof.
  intros Hem Hk. destruct s as [i e a ar ts c]. unfold aserial1, ev_fuel. cbn [astep ev_label]. cbn [a_ids a_ems a_acks a_armed a_thr a_calls] in *.
  case_decide; [|done]. unfold spawn, set_armed. cbn [a_ids a_ems a_acks a_armed a_thr a_calls].
  rewrite run_last. unfold step_thr, del_ack. cbn [a_ids a_ems a_acks a_armed a_thr a_calls]. rewrite Hem, Hk, set_last.
  rewrite run_last. unfold step_thr, log_call. cbn [a_ids a_ems a_acks a_armed a_thr a_calls]. by rewrite Hem, Hk, set_last, run_stop.
Qed.

(** Histories of non-overlapping handlers are schedules. *)
Lemma aexec_app ls1 ls2 s : aexec (ls1 ++ ls2) s = aexec ls1 s ≫= aexec ls2.
Proof. revert s. induction ls1 as [|l ls1 IH]; intros s; simpl; [done|]. destruct (astep l s); simpl; [apply IH|done]. Qed.
Lemma run_thr_exec n t s : ∃ ls, (∀ l, l ∈ ls → l = LRun t) ∧ aexec ls s = Some (run_thr n t s).
Proof.
  revert s. induction n as [|n IH]; intros s; simpl.
  - exists []. split; [|done]. intros l Hl. by apply elem_of_nil in Hl.
  - destruct (a_thr s !! t) as [[x|]|] eqn:E.
    + destruct (IH (step_thr t x s)) as (ls&H1&H2). exists (LRun t :: ls). split.
      * intros l [->|H]%elem_of_cons; auto.
      * simpl. by rewrite E.
    + exists []. split; [|done]. intros l Hl. by apply elem_of_nil in Hl.
    + exists []. split; [|done]. intros l Hl. by apply elem_of_nil in Hl.
Qed.
Lemma aserial_exec es s : ∃ ls, aexec ls s = Some (aserial es s).
Proof.
  revert s. induction es as [|e es IH]; intros s; simpl; [by exists []|].
  destruct (IH (aserial1 s e)) as [ls Hls]. unfold aserial1 in *. destruct (astep (ev_label e) s) as [s'|] eqn:E; [|by exists ls].
  destruct (run_thr_exec (ev_fuel e) (length (a_thr s)) s') as (ls1&_&H1).
  exists (ev_label e :: ls1 ++ ls). simpl. rewrite E, aexec_app, H1. done.
Qed.

(** Emissions only grow, by one per emitting event. *)
Lemma run_thr_ems n t s : a_ems (run_thr n t s) = a_ems s ∧ a_ids (run_thr n t s) = a_ids s.
Proof.
  revert s. induction n as [|n IH]; intros s; simpl; [done|]. repeat case_match; try done.
  destruct (IH (step_thr t a s)) as [-> ->]. destruct (step_thr_ems t a s) as [-> ->]. done.
Qed.
Lemma aserial1_ems s e : ∃ l, a_ems (aserial1 s e) = a_ems s ++ l ∧
  length l = (if ev_emits e then 1 else 0) ∧ ∀ n, n_on n l = if ev_emits_on n e then 1 else 0.
Proof.
  destruct e as [k tmo|n ks|k oid args|cb].
  - rewrite serial_emit. eexists. split; [done|]. split; [done|]. intros n. unfold n_on. rewrite filter_cons, filter_nil. simpl.
    case_decide; [rewrite bool_decide_true by done|rewrite bool_decide_false by done]; done.
  - rewrite serial_broadcast. eexists. split; [done|]. split; [done|]. intros m. unfold n_on. rewrite filter_cons, filter_nil. simpl.
    case_decide; [rewrite bool_decide_true by done|rewrite bool_decide_false by done]; done.
  - exists []. rewrite app_nil_r. split; [|done]. unfold aserial1. destruct oid; cbn [ev_label astep].
    + by destruct (run_thr_ems (ev_fuel (EvRecv k (Some n) args)) (length (a_thr s)) (spawn (TLoad k n args) s)) as [-> _].
    + by destruct (run_thr_ems (ev_fuel (EvRecv k None args)) (length (a_thr s)) s) as [-> _].
  - exists []. rewrite app_nil_r. split; [|done]. unfold aserial1. cbn [ev_label astep]. case_decide; [|done].
    by destruct (run_thr_ems (ev_fuel (EvExpire cb)) (length (a_thr s)) (spawn (TTimeDel cb) (set_armed (a_armed s ∖ {[cb]}) s))) as [-> _].
Qed.
Lemma n_on_app n l1 l2 : n_on n (l1 ++ l2) = n_on n l1 + n_on n l2.
Proof. unfold n_on. by rewrite filter_app, app_length. Qed.
Lemma aserial_ems es s : ∃ l, a_ems (aserial es s) = a_ems s ++ l ∧ length l = n_emits es ∧ ∀ n, n_on n l = n_emits_on n es.
Proof.
  revert s. induction es as [|e es IH]; intros s; simpl.
  - exists []. by rewrite app_nil_r.
  - destruct (aserial1_ems s e) as (l1&H1&H2&H3). destruct (IH (aserial1 s e)) as (l2&H4&H5&H6). exists (l1 ++ l2).
    rewrite H4, H1, app_assoc. split; [done|]. unfold n_emits, n_emits_on in *. rewrite app_length, H2, H5. split.
    + rewrite filter_cons. by destruct (ev_emits e).
    + intros n. rewrite n_on_app, H3, H6, filter_cons. by destruct (ev_emits_on n e).
Qed.
Lemma aserial_app es1 es2 s : aserial (es1 ++ es2) s = aserial es2 (aserial es1 s).
Proof. apply foldl_app. Qed.

(** *** One emission, from its registration on *)
Record pending (cb : nat) (k : nat * nat) (id : N) (tmo : bool) (s : ast) : Prop := {
  pd_em : a_ems s !! cb = Some (AEmission k.1 id [k] tmo);
  pd_ack : a_acks s !! (k, id) = Some cb;
  pd_armed : cb ∈ a_armed s ↔ tmo = true;
  pd_calls : calls_of cb s = [] }.
Record answered (cb : nat) (k : nat * nat) (id : N) (tmo : bool) (r : option (list value)) (s : ast) : Prop := {
  an_em : a_ems s !! cb = Some (AEmission k.1 id [k] tmo);
  an_ack : a_acks s !! (k, id) ≠ Some cb;
  an_armed : cb ∉ a_armed s;
  an_calls : calls_of cb s = [ACall cb k id r] }.
(** Facts about reachable states. *)
Record good (s : ast) : Prop := {
  g_acks : acks_sound s;
  g_armed : ∀ cb, cb ∈ a_armed s → em_timed s cb;
  g_socks : ∀ cb em, a_ems s !! cb = Some em → ∀ k, k ∈ em_socks em → k.1 = em_nsp em;
  g_ids : ids_ok s }.
Lemma socks_nsp_step l s s' : astep l s = Some s' →
  (∀ cb em, a_ems s !! cb = Some em → ∀ k, k ∈ em_socks em → k.1 = em_nsp em) →
  (∀ cb em, a_ems s' !! cb = Some em → ∀ k, k ∈ em_socks em → k.1 = em_nsp em).
Proof.
  intros Hs H. assert (∀ e l, l = [e] → (∀ k, k ∈ em_socks e → k.1 = em_nsp e) →
    ∀ cb em, (a_ems s ++ l) !! cb = Some em → ∀ k, k ∈ em_socks em → k.1 = em_nsp em) as Hg.
  { intros e ? -> He cb em Hem. apply lookup_app_Some in Hem as [Hem|[_ Hem]]; [by eapply H|].
    apply list_lookup_singleton_Some in Hem as [_ <-]. done. }
  destruct l as [k tmo|n ks|k [id|] args|cb|t]; cbn [astep] in Hs.
  - injection Hs as <-. cbn [start_emit spawn a_ems]. eapply Hg; [done|]. simpl. intros k' ->%elem_of_list_singleton. done.
  - injection Hs as <-. cbn [start_emit spawn a_ems]. eapply Hg; [done|]. simpl. intros k' (?&->&_)%elem_of_list_fmap. done.
  - by injection Hs as <-.
  - by injection Hs as <-.
  - case_decide; [|done]. by injection Hs as <-.
  - repeat case_match; simplify_eq. destruct (step_thr_ems t a s) as [_ ->]. done.
Qed.
Lemma aexec_good ls s : aexec ls ast0 = Some s → good s.
Proof.
  intros H. destruct (aexec_inv ls s H) as [? ? ?]. split; try done.
  revert H. apply (aexec_ind (λ _ s, ∀ cb em, a_ems s !! cb = Some em → ∀ k, k ∈ em_socks em → k.1 = em_nsp em)); [done|].
  intros _ l s1 s2 H1 H2. by eapply socks_nsp_step.
Qed.
Lemma aserial_good es : good (aserial es ast0).
Proof. destruct (aserial_exec es ast0) as [ls H]. by eapply aexec_good. Qed.
Lemma aserial1_good es e : good (aserial1 (aserial es ast0) e).
Proof. pose proof (aserial_good (es ++ [e])) as H. by rewrite aserial_app in H. Qed.

Lemma em_unique s k id cb cb' : good s → (N.of_nat (length (a_ems s)) < u64)%N →
  em_has s cb k id → em_has s cb' k id → cb = cb'.
Proof.
  intros Hg Hl (e1&H1&<-&Hk1) (e2&H2&Hid&Hk2).
  pose proof (g_socks _ Hg _ _ H1 _ Hk1). pose proof (g_socks _ Hg _ _ H2 _ Hk2).
  eapply ids_distinct; eauto; [by apply g_ids|]. congruence.
Qed.
Lemma calls_snoc cb s c cs : a_calls s = cs ++ [c] → calls_of cb s = filter (λ c, c_cb c = cb) cs ++ if decide (c_cb c = cb) then [c] else [].
Proof. intros H. unfold calls_of. rewrite H, filter_app. by rewrite filter_cons. Qed.
Lemma store_all_lookup ss id cb m k' id' :
  store_all ss id cb m !! (k', id') = if decide (id' = id ∧ k' ∈ ss) then Some cb else m !! (k', id').
Proof.
  unfold store_all. revert m. induction ss as [|k ss IH]; intros m; simpl.
  - rewrite decide_False; [done|]. intros [_ H]. by apply elem_of_nil in H.
  - rewrite IH. destruct (decide (id' = id ∧ k' ∈ ss)) as [[-> H]|H].
    + rewrite decide_True; [done|]. split; [done|by right].
    + destruct (decide (k' = k ∧ id' = id)) as [[-> ->]|Hne].
      * rewrite lookup_insert, decide_True; [done|]. split; [done|by left].
      * rewrite lookup_insert_ne by naive_solver. rewrite decide_False; [done|]. intros [-> [->|?]%elem_of_cons]; auto.
Qed.

(** An emitting event touches no other emission. *)
Lemma next_id_fresh s e k id cb em' n : good s → good (aserial1 s e) → (N.of_nat (length (a_ems (aserial1 s e))) < u64)%N →
  a_ems (aserial1 s e) = a_ems s ++ [em'] → em_nsp em' = n → em_id em' = id → k.1 = n → em_has s cb k id → False.
Proof.
  intros Hg Hg' Hl He Hn Hid Hk Hh.
  destruct Hh as (em&Hem&Hid'&Hin).
  assert (a_ems (aserial1 s e) !! cb = Some em) as H1 by (rewrite He; by apply lookup_app_l_Some).
  assert (a_ems (aserial1 s e) !! length (a_ems s) = Some em') as H2 by (rewrite He; by apply list_lookup_middle).
  assert (cb = length (a_ems s)).
  { eapply ids_distinct; [by apply (g_ids _ Hg')|done|done|done| |congruence].
    rewrite <- (g_socks _ Hg _ _ Hem _ Hin). congruence. }
  apply lookup_lt_Some in Hem. lia.
Qed.

Lemma first_answer_cons k id cb tmo e es :
  first_answer k id cb tmo (e :: es) =
    match first_answer k id cb tmo [e] with Some r => Some r | None => first_answer k id cb tmo es end.
Proof. destruct e as [| |k' [id'|]|]; simpl; try done; by case_decide. Qed.

Lemma em_has_pending s cb k id tmo : a_ems s !! cb = Some (AEmission k.1 id [k] tmo) → em_has s cb k id.
Proof. intros H. eexists. split; [exact H|]. split; [done|]. by left. Qed.

Section one_step.
Context (s : ast) (e : aevent) (cb : nat) (k : nat * nat) (id : N) (tmo : bool).
Hypothesis Hg : good s.
Hypothesis Hg' : good (aserial1 s e).
Hypothesis Hl : (N.of_nat (length (a_ems (aserial1 s e))) < u64)%N.

Lemma step_em : a_ems s !! cb = Some (AEmission k.1 id [k] tmo) → a_ems (aserial1 s e) !! cb = Some (AEmission k.1 id [k] tmo).
Proof. intros H. destruct (aserial1_ems s e) as (l&->&_). by apply lookup_app_l_Some. Qed.
Lemma len_small : (N.of_nat (length (a_ems s)) < u64)%N.
Proof. destruct (aserial1_ems s e) as (l&E&_). rewrite E, app_length in Hl. lia. Qed.

Lemma step_other (Hem : a_ems s !! cb = Some (AEmission k.1 id [k] tmo)) :
  first_answer k id cb tmo [e] = None →
  a_acks (aserial1 s e) !! (k, id) = a_acks s !! (k, id) ∧ (cb ∈ a_armed (aserial1 s e) ↔ cb ∈ a_armed s) ∧
  calls_of cb (aserial1 s e) = calls_of cb s.
Proof.
  pose proof len_small as Hsm. intros Hf. pose proof (em_has_pending _ _ _ _ _ Hem) as Hh. pose proof (lookup_lt_Some _ _ _ Hem) as Hlt.
  destruct e as [k' tmo'|n ks|k' [id'|] args|cb'].
  - pose proof (λ H1 H2, next_id_fresh s (EvEmit k' tmo') k id cb (AEmission k'.1 (next_id s k'.1) [k'] tmo') k'.1 Hg Hg' Hl H1 eq_refl H2) as Hfr.
    rewrite serial_emit in Hfr |- *. simpl in *. split; [|split].
    + rewrite lookup_insert_ne; [done|]. intros [= -> Hid]. by apply Hfr.
    + destruct tmo'; [|done]. rewrite elem_of_union, elem_of_singleton. split; [intros [?|?]; [lia|done]|by right].
    + done.
  - pose proof (λ H1 H2, next_id_fresh s (EvBroadcast n ks) k id cb (AEmission n (next_id s n) (pair n <$> ks) false) n Hg Hg' Hl H1 eq_refl H2) as Hfr.
    rewrite serial_broadcast in Hfr |- *. simpl in *. split; [|split; done].
    rewrite store_all_lookup, decide_False; [done|]. intros [Hid (?&Hk&_)%elem_of_list_fmap]. apply Hfr; try done. by rewrite Hk.
  - simpl in Hf. case_decide as Hne; [done|]. rewrite serial_recv by apply Hg. destruct (a_acks s !! (k', id')) as [cb'|] eqn:E; [|done].
    assert (cb' ≠ cb) as Hcb.
    { intros ->. destruct (g_acks _ Hg _ _ _ E) as (em&Hem'&Hid&Hin). rewrite Hem in Hem'. injection Hem' as <-. simpl in *.
      apply elem_of_list_singleton in Hin. naive_solver. }
    simpl. split; [|split].
    + rewrite lookup_delete_ne; [done|]. naive_solver.
    + destruct (em_timeout <$> a_ems s !! cb') as [[]|]; [|done..]. rewrite elem_of_difference, elem_of_singleton. naive_solver.
    + erewrite calls_snoc by done. simpl. rewrite decide_False by done. by rewrite app_nil_r.
  - rewrite serial_recv_none. done.
  - destruct (decide (cb' ∈ a_armed s)) as [Ha|Ha]; [|unfold aserial1; cbn [ev_label astep]; by rewrite decide_False].
    destruct (g_armed _ Hg _ Ha) as (em&k'&Hem'&Htm&Hk').
    assert (cb' ≠ cb) as Hcb. { intros ->. rewrite Hem in Hem'. injection Hem' as <-. simpl in *. rewrite decide_True in Hf; done. }
    rewrite (serial_expire s cb' em k') by done. rewrite decide_True by done. simpl. split; [|split].
    + rewrite lookup_delete_ne; [done|]. intros [= -> Hid]. destruct Hcb.
      apply (em_unique s k id); [done|exact Hsm| |done]. exists em. rewrite Hk'. split_and!; [done|done|by left].
    + rewrite elem_of_difference, elem_of_singleton. naive_solver.
    + erewrite calls_snoc by done. simpl. rewrite decide_False by done. by rewrite app_nil_r.
Qed.
Lemma step_pending : pending cb k id tmo s →
  match first_answer k id cb tmo [e] with
  | Some r => answered cb k id tmo r (aserial1 s e)
  | None => pending cb k id tmo (aserial1 s e)
  end.
Proof.
  pose proof len_small as Hsm. intros [Hem Hack Harm Hcalls]. pose proof (em_has_pending _ _ _ _ _ Hem) as Hh.
  destruct (first_answer k id cb tmo [e]) as [r|] eqn:Hf.
  - pose proof (step_em Hem) as Hem2. destruct e as [| |k' [id'|] args|cb']; simpl in Hf; try done; case_decide as Hc; simplify_eq.
    + destruct Hc as [-> ->]. rewrite serial_recv, Hack, Hem in Hem2 |- * by apply Hg. simpl in *. split; simpl.
      * done.
      * by rewrite lookup_delete.
      * destruct tmo; [|naive_solver]. rewrite elem_of_difference, elem_of_singleton. naive_solver.
      * erewrite calls_snoc by done. unfold calls_of in Hcalls. rewrite Hcalls. simpl. by rewrite decide_True.
    + destruct Hc as [-> ->]. assert (cb ∈ a_armed s) as Ha by naive_solver.
      rewrite (serial_expire s cb _ k Hem), decide_True in Hem2 |- * by done. simpl in *. split; simpl.
      * done.
      * by rewrite lookup_delete.
      * rewrite elem_of_difference, elem_of_singleton. naive_solver.
      * erewrite calls_snoc by done. unfold calls_of in Hcalls. rewrite Hcalls. simpl. by rewrite decide_True.
  - destruct (step_other Hem Hf) as (H1&H2&H3). split.
    + by apply step_em.
    + congruence.
    + by rewrite H2.
    + by rewrite H3.
Qed.
Lemma step_answered r : answered cb k id tmo r s → answered cb k id tmo r (aserial1 s e).
Proof.
  pose proof len_small as Hsm. intros [Hem Hack Harm Hcalls]. pose proof (em_has_pending _ _ _ _ _ Hem) as Hh.
  assert (a_acks s !! (k, id) = None) as Hno.
  { destruct (a_acks s !! (k, id)) as [cb'|] eqn:E; [|done]. destruct Hack. f_equal.
    apply (em_unique s k id); [done|exact Hsm| |done]. by apply (g_acks _ Hg). }
  pose proof (step_em Hem) as Hem2.
  destruct (first_answer k id cb tmo [e]) as [r'|] eqn:Hf.
  - destruct e as [| |k' [id'|] args|cb']; simpl in Hf; try done; case_decide as Hc; simplify_eq.
    + destruct Hc as [-> ->]. rewrite serial_recv, Hno in Hem2 |- * by apply Hg. by split.
    + destruct Hc as [-> ->]. rewrite (serial_expire s cb _ k Hem), decide_False in Hem2 |- * by done. by split.
  - destruct (step_other Hem Hf) as (H1&H2&H3). split.
    + done.
    + by rewrite H1.
    + by rewrite H2.
    + by rewrite H3.
Qed.
End one_step.

Lemma serial_emitted pre k tmo : (N.of_nat (n_emits (pre ++ [EvEmit k tmo])) < u64)%N →
  pending (n_emits pre) k (N.of_nat (S (n_emits_on k.1 pre))) tmo (aserial (pre ++ [EvEmit k tmo]) ast0).
Proof.
  intros Hb. set (s := aserial pre ast0). destruct (aserial_ems pre ast0) as (l&He&Hlen&Hon). fold s in He. simpl in He.
  assert (next_id s k.1 = N.of_nat (S (n_emits_on k.1 pre))) as Hid.
  { unfold next_id. destruct (g_ids s (aserial_good pre)) as [-> _]. rewrite He, Hon.
    assert (n_emits_on k.1 pre ≤ n_emits pre) as Hle. { rewrite <- (Hon k.1), <- Hlen. apply n_on_le. }
    unfold n_emits in Hb, Hle. rewrite filter_length_snoc in Hb. simpl in Hb.
    rewrite N.add_mod_idemp_l by apply u64_nz. rewrite N.mod_small; lia. }
  assert (length (a_ems s) = n_emits pre) as Hcb by (rewrite He; done).
  rewrite aserial_app. fold s. simpl. rewrite serial_emit, Hcb, Hid. split; simpl.
  - rewrite <- Hcb. by apply list_lookup_middle.
  - apply lookup_insert.
  - assert (n_emits pre ∉ a_armed s). { intros H. apply (g_armed s (aserial_good pre)) in H. apply em_timed_lt in H. lia. }
    destruct tmo; [|naive_solver]. rewrite elem_of_union, elem_of_singleton. naive_solver.
  - unfold calls_of. simpl. destruct (aserial_exec pre ast0) as [ls Hls]. pose proof (aexec_inv _ _ Hls) as Hi. fold s in Hi.
    destruct (filter (λ c, c_cb c = n_emits pre) (a_calls s)) as [|c cs] eqn:E; [done|].
    assert (c ∈ filter (λ c, c_cb c = n_emits pre) (a_calls s)) as Hc by (rewrite E; by left).
    apply elem_of_list_filter in Hc as [Hc1 Hc2]. destruct (ai_calls _ _ Hi c Hc2) as [(em&Hem&_) _]. apply lookup_lt_Some in Hem. lia.
Qed.
Lemma serial_answer pre k tmo post (cb := n_emits pre) (id := N.of_nat (S (n_emits_on k.1 pre))) :
  (N.of_nat (n_emits (pre ++ EvEmit k tmo :: post)) < u64)%N →
  let s := aserial (pre ++ EvEmit k tmo :: post) ast0 in
  match first_answer k id cb tmo post with
  | Some r => answered cb k id tmo r s
  | None => pending cb k id tmo s
  end.
Proof.
  induction post as [|e post IH] using rev_ind; intros Hb; simpl.
  - by apply serial_emitted.
  - assert (∀ es e, (N.of_nat (n_emits (es ++ [e])) < u64)%N → (N.of_nat (n_emits es) < u64)%N) as Hmono.
    { intros es e'. unfold n_emits. rewrite filter_length_snoc. lia. }
    rewrite app_comm_cons, app_assoc in Hb |- *. specialize (IH (Hmono _ _ Hb)). simpl in IH.
    assert (first_answer k id cb tmo (post ++ [e]) =
      match first_answer k id cb tmo post with Some r => Some r | None => first_answer k id cb tmo [e] end) as ->.
    { clear. induction post as [|e' post IH]; [done|]. rewrite <- app_comm_cons, first_answer_cons, IH, (first_answer_cons _ _ _ _ e' post).
      by destruct (first_answer k id cb tmo [e']). }
    set (es := pre ++ EvEmit k tmo :: post) in *.
    assert ((N.of_nat (length (a_ems (aserial1 (aserial es ast0) e))) < u64)%N) as Hlen.
    { destruct (aserial_ems (es ++ [e]) ast0) as (l&He&Hlen&_). rewrite aserial_app in He. simpl in He. by rewrite He, Hlen. }
    rewrite aserial_app. cbn [aserial foldl].
    destruct (first_answer k id cb tmo post) as [r|].
    + apply step_answered; [apply aserial_good|apply aserial1_good|done|done].
    + apply step_pending; [apply aserial_good|apply aserial1_good|done|done].
Qed.

Lemma serial_c10 pre post k tmo :
  let es := pre ++ EvEmit k tmo :: post in
  let cb := n_emits pre in
  let id := N.of_nat (S (n_emits_on k.1 pre)) in
  (N.of_nat (n_emits es) < u64)%N →
  (∃ em, a_ems (aserial es ast0) !! cb = Some em ∧ em_id em = id ∧ em_socks em = [k]) ∧
  calls_of cb (aserial es ast0) =
    match first_answer k id cb tmo post with Some r => [ACall cb k id r] | None => [] end ∧
  (tmo = true → (first_answer k id cb tmo post = None ↔ cb ∈ a_armed (aserial es ast0))).
Proof.
  intros es cb id Hb. pose proof (serial_answer pre k tmo post Hb) as H. cbv zeta in H.
  fold es cb id in H. destruct (first_answer k id cb tmo post) as [r|]; destruct H as [Hem Hack Harm Hcalls].
  - split; [eexists; done|]. split; [done|]. intros _. split; [done|]. intros Ha. destruct (Harm Ha).
  - split; [eexists; done|]. split; [done|]. intros ->. split; [intros _; by apply Harm|done].
Qed.
Lemma unknown_ignored es k oid args :
  let s := aserial es ast0 in
  (∀ id cb, oid = Some id → a_acks s !! (k, id) ≠ Some cb) →
  let s' := aserial (es ++ [EvRecv k oid args]) ast0 in
  a_calls s' = a_calls s ∧ a_acks s' = a_acks s ∧ a_armed s' = a_armed s ∧ a_ems s' = a_ems s.
Proof.
  intros s H. simpl. rewrite aserial_app. fold s. cbn [aserial foldl]. destruct oid as [id|].
  - rewrite serial_recv by apply aserial_good. destruct (a_acks s !! (k, id)) as [cb|] eqn:E; [|done]. by destruct (H id cb).
  - by rewrite serial_recv_none.
Qed.
Lemma routing_labels ls s c : aexec ls ast0 = Some s → (N.of_nat (length (omap label_emission ls)) < u64)%N → c ∈ a_calls s →
  (∃ em, a_ems s !! c_cb c = Some em ∧ em_id em = c_id c ∧ c_sock c ∈ em_socks em ∧
     match c_res c with Some args => LRecv (c_sock c) (Some (c_id c)) args ∈ ls | None => em_timeout em = true end) ∧
  (∀ cb em, a_ems s !! cb = Some em → em_id em = c_id c → c_sock c ∈ em_socks em → cb = c_cb c).
Proof. intros H Hl. apply routing; [done|]. rewrite <- (aexec_emissions _ _ H), fmap_length in Hl. done. Qed.
Lemma ids_distinct_labels ls s : aexec ls ast0 = Some s → (N.of_nat (length (omap label_emission ls)) < u64)%N →
  emission_desc <$> a_ems s = omap label_emission ls ∧
  ∀ i j ei ej, a_ems s !! i = Some ei → a_ems s !! j = Some ej → em_nsp ei = em_nsp ej → em_id ei = em_id ej → i = j.
Proof.
  intros H Hl. rewrite <- (aexec_emissions _ _ H), fmap_length in Hl. split; [by apply aexec_emissions|].
  intros i j ei ej. apply ids_distinct; [|done]. by eapply aexec_ids_ok.
Qed.

(** Deciding [quiet] on literals. *)
Definition quiet_b (s : ast) : bool := bool_decide (a_armed s = ∅) && forallb (λ x, match x with None => true | _ => false end) (a_thr s).
Lemma quiet_b_sound s : quiet_b s = true → quiet s.
Proof.
  unfold quiet_b. rewrite andb_true_iff. intros [H1 H2]. split; [by apply bool_decide_eq_true in H1|].
  intros t x Hx. apply elem_of_list_lookup_2 in Hx. rewrite forallb_forall in H2. apply elem_of_list_In in Hx. specialize (H2 _ Hx).
  by destruct x.
Qed.
