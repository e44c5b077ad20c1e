(** Proofs about [Acks.v]. *)
From Verif Require Import Base GoTypes Acks AcksSpec.

(** *** Counting over a list of goroutines *)
Definition cnt {A} (f : A → nat) (l : list A) : nat := sum_list_with f l.
Lemma cnt_app {A} (f : A → nat) l1 l2 : cnt f (l1 ++ l2) = cnt f l1 + cnt f l2.
Proof. apply sum_list_with_app. Qed.
Lemma cnt_insert {A} (f : A → nat) l t x y : l !! t = Some x → cnt f (<[t := y]> l) + f x = cnt f l + f y.
Proof.
  revert t. induction l as [|z l IH]; intros [|t] H; simpl in *; simplify_eq; unfold cnt in *; simpl; [lia|].
  specialize (IH t H). lia.
Qed.
Lemma cnt_lookup {A} (f : A → nat) l t x : l !! t = Some x → f x ≤ cnt f l.
Proof. intros H. pose proof (cnt_insert f l t x x H) as E. rewrite list_insert_id in E by done. clear E.
  revert t H. induction l as [|z l IH]; intros [|t] H; simpl in *; simplify_eq; unfold cnt in *; simpl; [lia|]. specialize (IH t H). lia. Qed.
Definition opt_f {A} (f : A → nat) (x : option A) : nat := match x with Some x => f x | None => 0 end.

Lemma filter_length_snoc {A} (P : A → Prop) `{∀ x, Decision (P x)} l x :
  length (filter P (l ++ [x])) = length (filter P l) + if decide (P x) then 1 else 0.
Proof. rewrite filter_app, app_length. f_equal. rewrite filter_cons. by case_decide. Qed.

(** *** Ids *)
Definition n_on (n : nat) (ems : list aemission) : nat := length (filter (λ e, em_nsp e = n) ems).
Definition ids_ok (s : ast) : Prop :=
  (∀ n, default 0%N (a_ids s !! n) = (N.of_nat (n_on n (a_ems s)) mod u64)%N) ∧
  (∀ i em, a_ems s !! i = Some em → em_id em = (N.of_nat (n_on (em_nsp em) (take (S i) (a_ems s))) mod u64)%N).
Lemma u64_nz : u64 ≠ 0%N. Proof. done. Qed.
Lemma ids_ok_emit n ss tmo f s : ids_ok s → ids_ok (start_emit n ss tmo f s).
Proof.
  intros [H1 H2]. unfold start_emit, spawn. simpl.
  assert (next_id s n = (N.of_nat (n_on n (a_ems s ++ [AEmission n (next_id s n) ss tmo])) mod u64)%N) as Hid.
  { unfold n_on. rewrite filter_length_snoc. simpl. rewrite decide_True by done. unfold next_id at 1. rewrite H1.
    rewrite Nat2N.inj_add. unfold n_on. rewrite N.add_mod_idemp_l by apply u64_nz. done. }
  split; simpl.
  - intros m. destruct (decide (m = n)) as [->|Hne].
    + rewrite lookup_insert. simpl. exact Hid.
    + rewrite lookup_insert_ne by done. rewrite H1. f_equal. f_equal. unfold n_on. rewrite filter_length_snoc. simpl.
      rewrite decide_False by done. lia.
  - intros i em Hi. apply lookup_app_Some in Hi as [Hi|[Hge Hi]].
    + rewrite take_app_le. { by apply H2. } apply lookup_lt_Some in Hi. lia.
    + destruct (i - length (a_ems s)) as [|j] eqn:Ej; simpl in Hi; [|by destruct j]. simplify_eq. simpl.
      rewrite take_ge. { exact Hid. } rewrite app_length. simpl. lia.
Qed.
(** Everything else leaves ids and emissions alone. *)
Lemma step_thr_ems t x s : a_ids (step_thr t x s) = a_ids s ∧ a_ems (step_thr t x s) = a_ems s.
Proof.
  destruct x as [cb|cb [|k ss]|k id args|k id args cb|k id args cb|k id|cb|cb]; simpl; repeat case_match; done.
Qed.
Lemma astep_ids_ok l s s' : astep l s = Some s' → ids_ok s → ids_ok s'.
Proof.
  destruct l as [k tmo|n ks|k [id|] args|cb|t]; simpl.
  - intros [= <-]. apply ids_ok_emit.
  - intros [= <-]. apply ids_ok_emit.
  - by intros [= <-].
  - by intros [= <-].
  - case_decide; [|done]. by intros [= <-].
  - destruct (a_thr s !! t) as [[x|]|]; [|done..]. intros [= <-] H. unfold ids_ok.
    destruct (step_thr_ems t x s) as [-> ->]. done.
Qed.
Lemma aexec_ind (I : list alabel → ast → Prop) : I [] ast0 →
  (∀ ls l s s', I ls s → astep l s = Some s' → I (ls ++ [l]) s') →
  ∀ ls s, aexec ls ast0 = Some s → I ls s.
Proof.
  intros H0 Hstep.
  assert (∀ ls2 ls1 s1 s, I ls1 s1 → aexec ls2 s1 = Some s → I (ls1 ++ ls2) s) as Hg.
  { induction ls2 as [|l ls2 IH]; intros ls1 s1 s H; simpl; [intros [= <-]; by rewrite app_nil_r|].
    destruct (astep l s1) as [s2|] eqn:E; [|done]. intros Hr. rewrite (app_assoc ls1 [l] ls2 : ls1 ++ l :: ls2 = _).
    eapply IH; eauto. }
  intros ls s H. by apply (Hg ls [] ast0 s).
Qed.
Lemma ids_ok0 : ids_ok ast0.
Proof. split; simpl; [intros n; by rewrite lookup_empty|intros i em; by rewrite lookup_nil]. Qed.
Lemma aexec_ids_ok ls s : aexec ls ast0 = Some s → ids_ok s.
Proof. apply (aexec_ind (λ _, ids_ok)); [apply ids_ok0|]. intros _ l s1 s2 H1 H2. by eapply astep_ids_ok. Qed.

Lemma n_on_le n ems : n_on n ems ≤ length ems.
Proof. apply filter_length. Qed.
Lemma n_on_take_lt n ems i j em : i < j → ems !! j = Some em → em_nsp em = n → n_on n (take (S i) ems) < n_on n (take (S j) ems).
Proof.
  intros Hij Hj Hn. rewrite (take_S_r _ _ _ Hj). unfold n_on. rewrite filter_length_snoc, decide_True by done.
  assert (take (S i) ems = take (S i) (take j ems)) as ->. { rewrite take_take. f_equal. lia. }
  assert (length (filter (λ e, em_nsp e = n) (take (S i) (take j ems))) ≤ length (filter (λ e, em_nsp e = n) (take j ems))); [|lia].
  rewrite <- (take_drop (S i) (take j ems)) at 2. rewrite filter_app, app_length. lia.
Qed.
Lemma ids_distinct s i j ei ej : ids_ok s → (N.of_nat (length (a_ems s)) < u64)%N →
  a_ems s !! i = Some ei → a_ems s !! j = Some ej → em_nsp ei = em_nsp ej → em_id ei = em_id ej → i = j.
Proof.
  intros [_ H] Hlen.
  assert (∀ i j ei ej, a_ems s !! i = Some ei → a_ems s !! j = Some ej → em_nsp ei = em_nsp ej → i < j → em_id ei ≠ em_id ej) as Hlt.
  { clear i j ei ej. intros i j ei ej Hi Hj Hn Hij. rewrite (H i ei Hi), (H j ej Hj), Hn.
    pose proof (n_on_take_lt (em_nsp ej) (a_ems s) i j ej Hij Hj eq_refl).
    pose proof (n_on_le (em_nsp ej) (take (S i) (a_ems s))) as L1. rewrite take_length in L1.
    pose proof (n_on_le (em_nsp ej) (take (S j) (a_ems s))) as L2. rewrite take_length in L2.
    rewrite !N.mod_small by lia. lia. }
  intros Hi Hj Hn He. destruct (decide (i = j)) as [|Hne]; [done|]. exfalso.
  destruct (decide (i < j)); [by eapply (Hlt i j)|]. eapply (Hlt j i); eauto. lia.
Qed.

(** *** Invariant of all schedules *)
Definition em_has (s : ast) (cb : nat) (k : nat * nat) (id : N) : Prop :=
  ∃ em, a_ems s !! cb = Some em ∧ em_id em = id ∧ k ∈ em_socks em.
Definition em_timed (s : ast) (cb : nat) : Prop :=
  ∃ em k, a_ems s !! cb = Some em ∧ em_timeout em = true ∧ em_socks em = [k].
Definition thr_ok (ls : list alabel) (s : ast) (x : athread) : Prop :=
  match x with
  | TArm cb => em_timed s cb
  | TStore cb ss => ∃ em, a_ems s !! cb = Some em ∧ ∀ k, k ∈ ss → k ∈ em_socks em
  | TLoad k id args => LRecv k (Some id) args ∈ ls
  | TClear k id args cb | TCall k id args cb => LRecv k (Some id) args ∈ ls ∧ em_has s cb k id
  | TDel k id => True
  | TTimeDel cb | TTimeCall cb => em_timed s cb
  end.
Definition f_recv (k : nat * nat) (id : N) (x : athread) : nat :=
  match x with
  | TLoad k' id' _ | TClear k' id' _ _ | TCall k' id' _ _ => if decide (k' = k ∧ id' = id) then 1 else 0
  | _ => 0
  end.
Definition f_time (cb : nat) (x : athread) : nat :=
  match x with
  | TArm cb' | TTimeDel cb' | TTimeCall cb' => if decide (cb' = cb) then 1 else 0
  | _ => 0
  end.
Definition n_replies (k : nat * nat) (id : N) (cs : list acall) : nat :=
  length (filter (λ c, c_sock c = k ∧ c_id c = id ∧ c_res c ≠ None) cs).
Definition n_timeouts (cb : nat) (cs : list acall) : nat := length (filter (λ c, c_cb c = cb ∧ c_res c = None) cs).
Definition is_armed (cb : nat) (s : ast) : nat := if decide (cb ∈ a_armed s) then 1 else 0.

Record ainv (ls : list alabel) (s : ast) : Prop := {
  ai_ids : ids_ok s;
  ai_acks : ∀ k id cb, a_acks s !! (k, id) = Some cb → em_has s cb k id;
  ai_armed : ∀ cb, cb ∈ a_armed s → em_timed s cb;
  ai_thr : ∀ t x, a_thr s !! t = Some (Some x) → thr_ok ls s x;
  ai_calls : ∀ c, c ∈ a_calls s → em_has s (c_cb c) (c_sock c) (c_id c) ∧
      match c_res c with Some args => LRecv (c_sock c) (Some (c_id c)) args ∈ ls | None => em_timed s (c_cb c) end;
  ai_recv : ∀ k id, n_replies k id (a_calls s) + cnt (opt_f (f_recv k id)) (a_thr s) ≤ n_recv k id ls;
  ai_time : ∀ cb, n_timeouts cb (a_calls s) + cnt (opt_f (f_time cb)) (a_thr s) + is_armed cb s ≤ 1;
  ai_fresh : ∀ cb, length (a_ems s) ≤ cb → n_timeouts cb (a_calls s) + cnt (opt_f (f_time cb)) (a_thr s) + is_armed cb s = 0
}.

Lemma em_has_mono s s' cb k id : (∃ l, a_ems s' = a_ems s ++ l) → em_has s cb k id → em_has s' cb k id.
Proof. intros [l E] (em&H&?). exists em. rewrite E. split; [by apply lookup_app_l_Some|done]. Qed.
Lemma em_timed_mono s s' cb : (∃ l, a_ems s' = a_ems s ++ l) → em_timed s cb → em_timed s' cb.
Proof. intros [l E] (em&k&H&?). exists em, k. rewrite E. split; [by apply lookup_app_l_Some|done]. Qed.
Lemma thr_ok_mono ls ls' s s' x : (∀ l, l ∈ ls → l ∈ ls') → (∃ l, a_ems s' = a_ems s ++ l) → thr_ok ls s x → thr_ok ls' s' x.
Proof.
  intros Hl He. destruct x; simpl.
  - by apply em_timed_mono.
  - destruct He as [l E]. intros (em&H&?). exists em. rewrite E. split; [by apply lookup_app_l_Some|done].
  - auto.
  - intros [? ?]. split; [auto|]. by eapply em_has_mono.
  - intros [? ?]. split; [auto|]. by eapply em_has_mono.
  - done.
  - by apply em_timed_mono.
  - by apply em_timed_mono.
Qed.
Lemma em_timed_lt s cb : em_timed s cb → cb < length (a_ems s).
Proof. intros (em&k&H&_). by eapply lookup_lt_Some. Qed.

Lemma n_recv_snoc k id ls l : n_recv k id (ls ++ [l]) = n_recv k id ls + if recv_of k id l then 1 else 0.
Proof. unfold n_recv. rewrite filter_length_snoc. f_equal. by destruct (recv_of k id l). Qed.
Lemma n_replies_snoc k id cs c : n_replies k id (cs ++ [c]) = n_replies k id cs + if decide (c_sock c = k ∧ c_id c = id ∧ c_res c ≠ None) then 1 else 0.
Proof. unfold n_replies. by rewrite filter_length_snoc. Qed.
Lemma n_timeouts_snoc cb cs c : n_timeouts cb (cs ++ [c]) = n_timeouts cb cs + if decide (c_cb c = cb ∧ c_res c = None) then 1 else 0.
Proof. unfold n_timeouts. by rewrite filter_length_snoc. Qed.
Lemma cnt_snoc {A} (f : A → nat) l x : cnt f (l ++ [x]) = cnt f l + f x.
Proof. rewrite cnt_app. unfold cnt at 2. simpl. lia. Qed.

Lemma ainv_thr_step ls s s' t x y : ainv ls s → a_thr s !! t = Some (Some x) →
  a_ids s' = a_ids s → a_ems s' = a_ems s → a_thr s' = <[t := y]> (a_thr s) →
  (∀ k id cb, a_acks s' !! (k, id) = Some cb → a_acks s !! (k, id) = Some cb ∨ em_has s cb k id) →
  (∀ cb, cb ∈ a_armed s' → cb ∈ a_armed s ∨ em_timed s cb) →
  (∀ z, y = Some z → thr_ok ls s z) →
  (∀ c, c ∈ a_calls s' → c ∈ a_calls s ∨ (em_has s (c_cb c) (c_sock c) (c_id c) ∧
      match c_res c with Some args => LRecv (c_sock c) (Some (c_id c)) args ∈ ls | None => em_timed s (c_cb c) end)) →
  (∀ k id, n_replies k id (a_calls s') + opt_f (f_recv k id) y ≤ n_replies k id (a_calls s) + f_recv k id x) →
  (∀ cb, n_timeouts cb (a_calls s') + opt_f (f_time cb) y + is_armed cb s' ≤ n_timeouts cb (a_calls s) + f_time cb x + is_armed cb s) →
  ainv (ls ++ [LRun t]) s'.
Proof.
  intros [I1 I2 I3 I4 I5 I6 I7 I8] Ht Ei Ee Et Hacks Harm Hy Hcalls Hrep Htim.
  assert (∃ l, a_ems s' = a_ems s ++ l) as He by (exists []; by rewrite app_nil_r).
  assert (∀ l, l ∈ ls → l ∈ ls ++ [LRun t]) as Hls by (intros; apply elem_of_app; auto).
  split.
  - unfold ids_ok. by rewrite Ei, Ee.
  - intros k id cb H. eapply em_has_mono; [done|]. destruct (Hacks _ _ _ H); auto.
  - intros cb H. eapply em_timed_mono; [done|]. destruct (Harm _ H); auto.
  - intros t' z. rewrite Et. intros Hz. eapply thr_ok_mono; [done..|].
    apply list_lookup_insert_Some in Hz as [(_&Ez&_)|[_ Hz]]; eauto.
  - intros c Hc. destruct (Hcalls c Hc) as [Hc'|[Hc1 Hc2]].
    + destruct (I5 c Hc') as [H1 H2]. split; [by eapply em_has_mono|]. destruct (c_res c); [auto|by eapply em_timed_mono].
    + split; [by eapply em_has_mono|]. destruct (c_res c); [auto|by eapply em_timed_mono].
  - intros k id. rewrite Et, n_recv_snoc. simpl. pose proof (cnt_insert (opt_f (f_recv k id)) _ _ _ y Ht) as Hc. simpl in Hc.
    specialize (Hrep k id). specialize (I6 k id). lia.
  - intros cb. rewrite Et. pose proof (cnt_insert (opt_f (f_time cb)) _ _ _ y Ht) as Hc. simpl in Hc.
    specialize (Htim cb). specialize (I7 cb). lia.
  - intros cb Hcb. rewrite Ee in Hcb. rewrite Et. pose proof (cnt_insert (opt_f (f_time cb)) _ _ _ y Ht) as Hc. simpl in Hc.
    specialize (Htim cb). specialize (I8 cb Hcb). lia.
Qed.

(** The two goroutines an emission can start with. *)
Lemma ainv_emit ls l n ss tmo f s : ainv ls s → (∀ k id, recv_of k id l = false) →
  (∀ cb, f cb = TStore cb ss ∨ (f cb = TArm cb ∧ tmo = true ∧ ∃ k, ss = [k])) →
  ainv (ls ++ [l]) (start_emit n ss tmo f s).
Proof.
  intros [I1 I2 I3 I4 I5 I6 I7 I8] Hl Hf. unfold start_emit.
  set (s' := spawn _ _).
  assert (∃ l, a_ems s' = a_ems s ++ l) as He by eauto.
  assert (∀ l0, l0 ∈ ls → l0 ∈ ls ++ [l]) as Hls by (intros; apply elem_of_app; auto).
  split.
  - apply ids_ok_emit. done.
  - intros k id cb H. eapply em_has_mono; eauto.
  - intros cb H. eapply em_timed_mono; eauto.
  - intros t x Hx. simpl in Hx. apply lookup_app_Some in Hx as [Hx|[_ Hx]].
    + eapply thr_ok_mono; eauto.
    + destruct (t - length (a_thr s)) as [|j]; simpl in Hx; [|by destruct j]. injection Hx as <-.
      destruct (Hf (length (a_ems s))) as [->|(->&->&k&->)]; simpl.
      * eexists. split; [apply list_lookup_middle; done|done].
      * eexists _, k. split; [apply list_lookup_middle; done|done].
  - intros c Hc. destruct (I5 c Hc) as [H1 H2]. split; [by eapply em_has_mono|]. destruct (c_res c); [auto|by eapply em_timed_mono].
  - intros k id. simpl. rewrite n_recv_snoc, Hl, cnt_snoc. simpl. specialize (I6 k id).
    destruct (Hf (length (a_ems s))) as [->|(->&_)]; simpl; lia.
  - intros cb. simpl. rewrite cnt_snoc. unfold is_armed. simpl. fold (is_armed cb s).
    destruct (Hf (length (a_ems s))) as [->|(->&_)]; simpl; specialize (I7 cb); [lia|].
    case_decide; [subst; specialize (I8 (length (a_ems s)))|]; lia.
  - intros cb. simpl. rewrite app_length. simpl. intros Hcb. rewrite cnt_snoc. unfold is_armed. simpl. fold (is_armed cb s).
    destruct (Hf (length (a_ems s))) as [->|(->&_)]; simpl; specialize (I8 cb); [lia|]. rewrite decide_False by lia. lia.
Qed.

Lemma ainv_step ls l s s' : ainv ls s → astep l s = Some s' → ainv (ls ++ [l]) s'.
Proof.
  intros Hi. pose proof Hi as [I1 I2 I3 I4 I5 I6 I7 I8]. destruct l as [k tmo|n ks|k [id|] args|cb|t]; simpl.
  - intros [= <-]. apply ainv_emit; [done|done|]. intros cb. destruct tmo; [right|by left]. eauto.
  - intros [= <-]. apply ainv_emit; [done|done|]. intros cb. by left.
  - intros [= <-].
    assert (∀ l0, l0 ∈ ls → l0 ∈ ls ++ [LRecv k (Some id) args]) as Hls by (intros; apply elem_of_app; auto).
    assert (∃ l, a_ems (spawn (TLoad k id args) s) = a_ems s ++ l) as He by (exists []; by rewrite app_nil_r).
    split; try done.
    + intros t x Hx. simpl in Hx. apply lookup_app_Some in Hx as [Hx|[_ Hx]].
      * eapply thr_ok_mono; eauto.
      * destruct (t - length (a_thr s)) as [|j]; simpl in Hx; [|by destruct j]. injection Hx as <-. simpl.
        apply elem_of_app. right. by left.
    + intros c Hc. destruct (I5 c Hc) as [H1 H2]. split; [done|]. destruct (c_res c); auto.
    + intros k' id'. simpl. rewrite n_recv_snoc, cnt_snoc. simpl. specialize (I6 k' id').
      case_decide; [rewrite bool_decide_true by done|rewrite bool_decide_false by done]; lia.
    + intros cb. simpl. rewrite cnt_snoc. simpl. specialize (I7 cb). unfold is_armed in *. simpl. lia.
    + intros cb Hcb. simpl. rewrite cnt_snoc. simpl. specialize (I8 cb Hcb). unfold is_armed in *. simpl. lia.
  - intros [= <-].
    assert (∀ l0, l0 ∈ ls → l0 ∈ ls ++ [LRecv k None args]) as Hls by (intros; apply elem_of_app; auto).
    assert (∃ l, a_ems s = a_ems s ++ l) as He by (exists []; by rewrite app_nil_r).
    split; try done.
    + intros t x Hx. eapply thr_ok_mono; eauto.
    + intros c Hc. destruct (I5 c Hc) as [H1 H2]. split; [done|]. destruct (c_res c); auto.
    + intros k' id'. rewrite n_recv_snoc. simpl. specialize (I6 k' id'). lia.
  - case_decide as Ha; [|done]. intros [= <-].
    assert (∀ l0, l0 ∈ ls → l0 ∈ ls ++ [LExpire cb]) as Hls by (intros; apply elem_of_app; auto).
    set (s' := spawn _ _).
    assert (∃ l, a_ems s' = a_ems s ++ l) as He by (exists []; simpl; by rewrite app_nil_r).
    assert (∀ cb', is_armed cb' s' + opt_f (f_time cb') (Some (TTimeDel cb)) = is_armed cb' s) as Hcount.
    { intros cb'. unfold is_armed, s', spawn, set_armed. cbn [a_armed opt_f f_time].
      destruct (decide (cb = cb')) as [<-|Hne].
      - rewrite decide_False by (clear; set_solver). by rewrite decide_True by done.
      - destruct (decide (cb' ∈ a_armed s)) as [Hin|Hin].
        + rewrite decide_True; [done|]. clear -Hin Hne. set_solver.
        + rewrite decide_False; [done|]. clear -Hin. set_solver. }
    split; try done.
    + intros cb' H'. simpl in H'. eapply em_timed_mono; [done|]. apply I3. clear -H'. set_solver.
    + intros t x Hx. simpl in Hx. apply lookup_app_Some in Hx as [Hx|[_ Hx]].
      * eapply thr_ok_mono; eauto.
      * destruct (t - length (a_thr s)) as [|j]; simpl in Hx; [|by destruct j]. injection Hx as <-. simpl.
        eapply em_timed_mono; [done|]. by apply I3.
    + intros c Hc. destruct (I5 c Hc) as [H1 H2]. split; [done|]. destruct (c_res c); auto.
    + intros k' id'. simpl. rewrite n_recv_snoc, cnt_snoc. simpl. specialize (I6 k' id'). lia.
    + intros cb'. specialize (Hcount cb'). cbn [a_calls a_thr s' spawn set_armed]. rewrite cnt_snoc. specialize (I7 cb'). lia.
    + intros cb' Hcb. specialize (Hcount cb'). cbn [a_calls a_thr s' spawn set_armed]. rewrite cnt_snoc. specialize (I8 cb' Hcb). lia.
  - destruct (a_thr s !! t) as [[x|]|] eqn:Ht; [|done..]. intros [= <-].
    assert (∀ X Y : nat, X ≤ Y → X ≤ Y + 0) by lia.
    pose proof (I4 t x Ht) as Hx.
    destruct x as [cb|cb [|k ss]|k id args|k id args cb|k id args cb|k id|cb|cb]; simpl in Hx |- *.
    + destruct Hx as (em&k&Hem&Htm&Hk). rewrite Hem.
      eapply ainv_thr_step; try done; simpl; auto.
      * intros cb'. intros Hcb. destruct (decide (cb' = cb)) as [->|]; [right; by exists em, k|left; clear -Hcb n; set_solver].
      * intros z [= <-]. simpl. eauto.
      * intros cb'. unfold is_armed. simpl. destruct (decide (cb = cb')) as [<-|Hne].
        { repeat case_decide; lia. }
        { destruct (decide (cb' ∈ a_armed s)) as [Hin|Hin].
          - rewrite decide_True; [lia|]. clear -Hin. set_solver.
          - rewrite decide_False; [lia|]. clear -Hin Hne. set_solver. }
    + eapply ainv_thr_step; try done; simpl; auto; intros; lia.
    + destruct Hx as (em&Hem&Hss). rewrite Hem. eapply ainv_thr_step; try done; simpl; auto.
      * intros k' id' cb' Hl. apply lookup_insert_Some in Hl as [[[= <- <-] <-]|[_ Hl]]; [|by left].
        right. exists em. split_and!; [done|done|]. apply Hss. by left.
      * intros z Hz. destruct ss as [|k' ss]; [done|]. injection Hz as <-. simpl. exists em. split; [done|].
        intros k0 Hk0. apply Hss. by right.
      * intros. by destruct ss.
      * intros. destruct ss; simpl; unfold is_armed; simpl; lia.
    + destruct (a_acks s !! (k, id)) as [cb|] eqn:Hk.
      * pose proof (I2 _ _ _ Hk) as (em&Hem&Hid&Hin). rewrite Hem. eapply ainv_thr_step; try done; simpl; auto.
        -- intros z [= <-]. destruct (em_timeout em); simpl; split; try done; exists em; done.
        -- intros. by destruct (em_timeout em).
        -- intros. destruct (em_timeout em); simpl; unfold is_armed; simpl; lia.
      * eapply ainv_thr_step; try done; simpl; auto; intros; lia.
    + eapply ainv_thr_step; try done; simpl; auto.
      * intros cb' Hcb. left. clear -Hcb. set_solver.
      * intros z [= <-]. done.
      * intros cb'. unfold is_armed. simpl. repeat case_decide; try lia. exfalso. clear -H0 H1. set_solver.
    + eapply ainv_thr_step; try done; simpl; auto.
      * intros z [= <-]. done.
      * intros c Hc. apply elem_of_app in Hc as [Hc|Hc]; [by left|]. apply elem_of_list_singleton in Hc as ->. right. simpl. naive_solver.
      * intros k' id'. rewrite n_replies_snoc. simpl. repeat case_decide; try lia. naive_solver.
      * intros cb'. rewrite n_timeouts_snoc. simpl. unfold is_armed. simpl. rewrite (decide_False (P := cb = cb' ∧ _)) by naive_solver. lia.
    + eapply ainv_thr_step; try done; simpl; auto.
      * intros k' id' cb' Hl. left. by apply lookup_delete_Some in Hl as [_ ?].
    + destruct Hx as (em&k&Hem&Htm&Hk). rewrite Hem, Hk. eapply ainv_thr_step; try done; simpl; auto.
      * intros k' id' cb' Hl. left. by apply lookup_delete_Some in Hl as [_ ?].
      * intros z [= <-]. exists em, k. done.
    + destruct Hx as (em&k&Hem&Htm&Hk). rewrite Hem, Hk. eapply ainv_thr_step; try done; simpl; auto.
      * intros c Hc. apply elem_of_app in Hc as [Hc|Hc]; [by left|]. apply elem_of_list_singleton in Hc as ->. right. simpl.
        split; [|by exists em, k]. exists em. rewrite Hk. split_and!; [done|done|by left].
      * intros k' id'. rewrite n_replies_snoc. simpl. rewrite decide_False by naive_solver. lia.
      * intros cb'. rewrite n_timeouts_snoc. simpl. unfold is_armed. simpl. repeat case_decide; try lia.
Qed.
Lemma ainv0 : ainv [] ast0.
Proof.
  split; simpl; try done.
  - intros c Hc. by apply elem_of_nil in Hc.
  - intros cb. unfold is_armed. case_decide; lia.
Qed.
Lemma aexec_inv ls s : aexec ls ast0 = Some s → ainv ls s.
Proof. apply (aexec_ind ainv); [apply ainv0|]. intros. by eapply ainv_step. Qed.

(** *** The emissions of a schedule *)
Lemma aexec_emissions ls s : aexec ls ast0 = Some s → emission_desc <$> a_ems s = omap label_emission ls.
Proof.
  apply (aexec_ind (λ ls s, emission_desc <$> a_ems s = omap label_emission ls)); [done|].
  intros ls' l s1 s2 IH Hs. rewrite omap_app, <- IH.
  destruct l as [k tmo|n ks|k [id|] args|cb|t]; cbn [astep] in Hs; simpl; rewrite ?app_nil_r.
  - injection Hs as <-. cbn [start_emit spawn a_ems]. by rewrite fmap_app.
  - injection Hs as <-. cbn [start_emit spawn a_ems]. by rewrite fmap_app.
  - by injection Hs as <-.
  - by injection Hs as <-.
  - case_decide; [|done]. by injection Hs as <-.
  - repeat case_match; simplify_eq. destruct (step_thr_ems t a s1) as [_ ->]. done.
Qed.

(** *** Calls of one callback *)
Lemma calls_of_split cb (cs : list acall) k id : (∀ c, c ∈ cs → c_cb c = cb → c_sock c = k ∧ c_id c = id) →
  length (filter (λ c, c_cb c = cb) cs) ≤ n_replies k id cs + n_timeouts cb cs.
Proof.
  unfold n_replies, n_timeouts. induction cs as [|c cs IH]; intros H; [done|]. rewrite !filter_cons.
  assert (length (filter (λ c, c_cb c = cb) cs) ≤ length (filter (λ c, c_sock c = k ∧ c_id c = id ∧ c_res c ≠ None) cs) +
    length (filter (λ c, c_cb c = cb ∧ c_res c = None) cs)) as IH'. { apply IH. intros. apply H; [by right|done]. }
  assert (c ∈ c :: cs) as Hc by left. specialize (H c Hc). repeat case_decide; simpl; try lia; exfalso; naive_solver.
Qed.
Lemma calls_bound ls s cb k id tmo n : aexec ls ast0 = Some s → a_ems s !! cb = Some (AEmission n id [k] tmo) →
  length (calls_of cb s) ≤ n_recv k id ls + (if tmo then 1 else 0) ∧
  length (filter (λ c, c_res c = None) (calls_of cb s)) ≤ if tmo then 1 else 0.
Proof.
  intros H Hem. pose proof (aexec_inv _ _ H) as Hi.
  assert (∀ c, c ∈ a_calls s → c_cb c = cb → c_sock c = k ∧ c_id c = id) as Hc.
  { intros c Hc <-. destruct (ai_calls _ _ Hi c Hc) as [(em&H1&H2&H3) _]. rewrite Hem in H1. injection H1 as <-. simpl in *.
    by apply elem_of_list_singleton in H3. }
  assert (n_timeouts cb (a_calls s) ≤ if tmo then 1 else 0) as Ht.
  { destruct tmo; [pose proof (ai_time _ _ Hi cb); lia|]. unfold n_timeouts.
    destruct (filter (λ c, c_cb c = cb ∧ c_res c = None) (a_calls s)) as [|c l] eqn:E; [done|].
    assert (c ∈ filter (λ c, c_cb c = cb ∧ c_res c = None) (a_calls s)) as Hin by (rewrite E; by left).
    apply elem_of_list_filter in Hin as [[Hc1 Hc2] Hc3]. destruct (ai_calls _ _ Hi c Hc3) as [_ Hr]. rewrite Hc2, Hc1 in Hr.
    destruct Hr as (em&k'&H1&H2&_). rewrite Hem in H1. by injection H1 as <-. }
  split.
  - pose proof (calls_of_split cb (a_calls s) k id Hc). pose proof (ai_recv _ _ Hi k id). unfold calls_of. lia.
  - unfold calls_of. rewrite list_filter_filter. etransitivity; [|exact Ht]. unfold n_timeouts.
    erewrite list_filter_iff; [done|]. intros c; simpl. tauto.
Qed.

(** *** With a timeout the callback is called at least once *)
Definition f_any (cb : nat) (x : athread) : nat :=
  match x with
  | TArm cb' | TTimeDel cb' | TTimeCall cb' | TCall _ _ _ cb' => if decide (cb' = cb) then 1 else 0
  | _ => 0
  end.
Definition alive (cb : nat) (s : ast) : nat := length (calls_of cb s) + cnt (opt_f (f_any cb)) (a_thr s) + is_armed cb s.
Lemma calls_of_snoc cb cs c : length (filter (λ c, c_cb c = cb) (cs ++ [c])) = length (filter (λ c, c_cb c = cb) cs) + if decide (c_cb c = cb) then 1 else 0.
Proof. by rewrite (filter_length_snoc (λ c, c_cb c = cb) cs c). Qed.
Lemma alive_step ls l s s' cb : ainv ls s → astep l s = Some s' → em_timed s' cb → (em_timed s cb → 1 ≤ alive cb s) → 1 ≤ alive cb s'.
Proof.
  intros Hi Hs Htm Hal. unfold alive, calls_of, is_armed in *.
  destruct l as [k tmo|n ks|k [id|] args|cb'|t]; cbn [astep] in Hs.
  - injection Hs as <-. cbn [start_emit spawn a_ems a_calls a_thr a_armed]. rewrite cnt_snoc.
    destruct Htm as (em&k'&Hem&Ht&Hk'). cbn [start_emit spawn a_ems] in Hem. apply lookup_app_Some in Hem as [Hem|[Hge Hem]].
    + assert (em_timed s cb) as Htm by (exists em, k'; done). specialize (Hal Htm). lia.
    + apply list_lookup_singleton_Some in Hem as [Hcb <-]. simpl in Ht. subst tmo. simpl. rewrite decide_True by lia. lia.
  - injection Hs as <-. cbn [start_emit spawn a_ems a_calls a_thr a_armed]. rewrite cnt_snoc.
    destruct Htm as (em&k'&Hem&Ht&Hk'). cbn [start_emit spawn a_ems] in Hem. apply lookup_app_Some in Hem as [Hem|[Hge Hem]].
    + assert (em_timed s cb) as Htm by (exists em, k'; done). specialize (Hal Htm). lia.
    + by apply list_lookup_singleton_Some in Hem as [Hcb <-].
  - injection Hs as <-. specialize (Hal Htm). cbn [spawn a_calls a_thr a_armed]. rewrite cnt_snoc. lia.
  - injection Hs as <-. auto.
  - destruct (decide (cb' ∈ a_armed s)) as [Hin|Hin]; [|done]. injection Hs as <-. specialize (Hal Htm). cbn [spawn set_armed a_calls a_thr a_armed].
    rewrite cnt_snoc. cbn [opt_f f_any]. destruct (decide (cb' = cb)); [lia|].
    destruct (decide (cb ∈ a_armed s)) as [Hc|Hc].
    + rewrite decide_True; [lia|]. clear -Hc n. set_solver.
    + lia.
  - destruct (a_thr s !! t) as [[x|]|] eqn:Ht; [|done..]. injection Hs as <-.
    assert (em_timed s cb) as Htm0.
    { destruct Htm as (em&k'&Hem&Hr). destruct (step_thr_ems t x s) as [_ E]. rewrite E in Hem. exists em, k'. done. }
    specialize (Hal Htm0). pose proof (ai_thr _ _ Hi _ _ Ht) as Hx.
    assert (∀ y, cnt (opt_f (f_any cb)) (<[t:=y]> (a_thr s)) + f_any cb x = cnt (opt_f (f_any cb)) (a_thr s) + opt_f (f_any cb) y) as Hc.
    { intros y. apply (cnt_insert (opt_f (f_any cb)) _ _ (Some x) y Ht). }
    destruct x as [cb'|cb' [|k ss]|k id args|k id args cb'|k id args cb'|k id|cb'|cb']; simpl in Hx |- *.
    + destruct Hx as (em&k&Hem&_). rewrite Hem. cbn [set_thr set_armed a_calls a_thr a_armed].
      pose proof (Hc (Some (TStore cb' (em_socks em)))) as Hc1. cbn [f_any opt_f] in Hc1.
      destruct (decide (cb' = cb)) as [<-|Hne].
      * rewrite (decide_True (P := cb' ∈ _)) by (clear; set_solver). lia.
      * destruct (decide (cb ∈ a_armed s)) as [Hin|Hin]; [rewrite decide_True by (clear -Hin; set_solver); lia|lia].
    + pose proof (Hc None) as Hc1. cbn [f_any opt_f] in Hc1. cbn [set_thr a_calls a_thr a_armed]. lia.
    + destruct Hx as (em&Hem&_). rewrite Hem. cbn [set_thr store_ack a_calls a_thr a_armed].
      match goal with |- context [<[t := ?y]> _] => pose proof (Hc y) as Hc1 end. destruct ss; cbn [f_any opt_f] in Hc1; lia.
    + destruct (a_acks s !! (k, id)) as [cb'|] eqn:Hk.
      * destruct (ai_acks _ _ Hi _ _ _ Hk) as (em&Hem&_). rewrite Hem. cbn [set_thr a_calls a_thr a_armed].
        match goal with |- context [<[t := ?y]> _] => pose proof (Hc y) as Hc1 end. destruct (em_timeout em); cbn [f_any opt_f] in Hc1; lia.
      * pose proof (Hc None) as Hc1. cbn [f_any opt_f] in Hc1. cbn [set_thr a_calls a_thr a_armed]. lia.
    + cbn [set_thr set_armed a_calls a_thr a_armed]. pose proof (Hc (Some (TCall k id args cb'))) as Hc1. cbn [f_any opt_f] in Hc1.
      destruct (decide (cb' = cb)); [lia|]. destruct (decide (cb ∈ a_armed s)) as [Hin|Hin]; [|lia].
      rewrite decide_True; [lia|]. clear -Hin n. set_solver.
    + cbn [set_thr log_call a_calls a_thr a_armed]. rewrite calls_of_snoc. pose proof (Hc (Some (TDel k id))) as Hc1. cbn [f_any opt_f] in Hc1.
      cbn [c_cb]. lia.
    + cbn [set_thr del_ack a_calls a_thr a_armed]. pose proof (Hc None) as Hc1. cbn [f_any opt_f] in Hc1. lia.
    + destruct Hx as (em&k&Hem&_&Hk). rewrite Hem, Hk. cbn [set_thr del_ack a_calls a_thr a_armed].
      pose proof (Hc (Some (TTimeCall cb'))) as Hc1. cbn [f_any opt_f] in Hc1. lia.
    + destruct Hx as (em&k&Hem&_&Hk). rewrite Hem, Hk. cbn [set_thr log_call a_calls a_thr a_armed]. rewrite calls_of_snoc.
      pose proof (Hc None) as Hc1. cbn [f_any opt_f] in Hc1. cbn [c_cb]. lia.
Qed.
Lemma aexec_alive ls s cb : aexec ls ast0 = Some s → em_timed s cb → 1 ≤ alive cb s.
Proof.
  intros H. assert (ainv ls s ∧ (em_timed s cb → 1 ≤ alive cb s)) as [_ ?]; [|done]. revert H.
  apply (aexec_ind (λ ls s, ainv ls s ∧ (em_timed s cb → 1 ≤ alive cb s))).
  - split; [apply ainv0|]. intros (em&k&Hem&_). done.
  - intros ls' l s1 s2 [H1 H2] Hs. split; [by eapply ainv_step|]. intros Htm. by eapply alive_step.
Qed.
Lemma cnt_zero {A} (f : A → nat) l : (∀ t x, l !! t = Some x → f x = 0) → cnt f l = 0.
Proof.
  induction l as [|x l IH]; intros H; [done|]. unfold cnt in *. simpl. rewrite (H 0 x eq_refl), IH; [done|].
  intros t y Hy. by apply (H (S t)).
Qed.
Lemma timed_called ls s cb em k : aexec ls ast0 = Some s → quiet s → a_ems s !! cb = Some em → em_socks em = [k] → em_timeout em = true →
  1 ≤ length (calls_of cb s).
Proof.
  intros H [Hq1 Hq2] Hem Hk Ht. assert (em_timed s cb) as Htm by (exists em, k; done).
  pose proof (aexec_alive _ _ _ H Htm) as Ha. unfold alive, is_armed in Ha.
  rewrite Hq1, decide_False in Ha by (clear; set_solver). rewrite cnt_zero in Ha; [lia|].
  intros t x Hx. by rewrite (Hq2 _ _ Hx).
Qed.

(** *** Routing *)
Lemma socks_nsp ls s cb em k : aexec ls ast0 = Some s → a_ems s !! cb = Some em → k ∈ em_socks em → k.1 = em_nsp em.
Proof.
  intros H Hem Hk. pose proof (aexec_emissions _ _ H) as He.
  assert (emission_desc em ∈ omap label_emission ls) as Hd.
  { rewrite <- He. apply elem_of_list_fmap. exists em. split; [done|]. by eapply elem_of_list_lookup_2. }
  apply elem_of_list_omap in Hd as (l&_&Hl). destruct l; simpl in Hl; try done; injection Hl; intros _ Hs <-; rewrite <- Hs in Hk.
  - by apply elem_of_list_singleton in Hk as ->.
  - by apply elem_of_list_fmap in Hk as (?&->&_).
Qed.
Lemma routing ls s c : aexec ls ast0 = Some s → (N.of_nat (length (a_ems s)) < u64)%N → c ∈ a_calls s →
  (∃ em, a_ems s !! c_cb c = Some em ∧ em_id em = c_id c ∧ c_sock c ∈ em_socks em ∧
     match c_res c with Some args => LRecv (c_sock c) (Some (c_id c)) args ∈ ls | None => em_timeout em = true end) ∧
  (∀ cb em, a_ems s !! cb = Some em → em_id em = c_id c → c_sock c ∈ em_socks em → cb = c_cb c).
Proof.
  intros H Hlen Hc. pose proof (aexec_inv _ _ H) as Hi. destruct (ai_calls _ _ Hi c Hc) as [(em&H1&H2&H3) Hr]. split.
  - exists em. split; [done|]. split; [done|]. split; [done|]. destruct (c_res c); [done|].
    destruct Hr as (em'&k&H4&H5&_). congruence.
  - intros cb em' H4 H5 H6. eapply (ids_distinct s cb (c_cb c)); eauto using ai_ids; [|congruence].
    rewrite <- (socks_nsp ls s cb em' (c_sock c)), <- (socks_nsp ls s _ em (c_sock c)) by done. done.
Qed.
