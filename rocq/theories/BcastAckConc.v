(** Proofs about [BcastAck.v]: all schedules. *)
From Verif Require Import Base GoTypes BcastAck BcastAckSpec AcksProofs BcastAckProofs.

Section conc.
Context (sc : nat) (single : bool).
Local Notation step := (bstep sc single).
Local Notation exec := (bexec sc single).

Lemma bexec_ind (I : list blabel → bst → Prop) : I [] bst0 →
  (∀ ls l s s', I ls s → step l s = Some s' → I (ls ++ [l]) s') →
  ∀ ls s, exec ls bst0 = Some s → I ls s.
Proof.
  intros H0 Hstep.
  assert (∀ ls2 ls1 s1 s, I ls1 s1 → exec ls2 s1 = Some s → I (ls1 ++ ls2) s) as Hg.
  { induction ls2 as [|l ls2 IH]; intros ls1 s1 s H; simpl; [intros [= <-]; by rewrite app_nil_r|].
    destruct (step l s1) as [s2|] eqn:E; [|done]. intros Hr. rewrite (app_assoc ls1 [l] ls2 : ls1 ++ l :: ls2 = _).
    eapply IH; eauto. }
  intros ls s H. by apply (Hg ls [] bst0 s).
Qed.

(** Contributions of goroutines still on their way. *)
Definition f_cli (x : bthread) : nat := match x with BAddCli n => n | _ => 0 end.
Definition f_srv (x : bthread) : nat := match x with BAddCli _ | BAddSrv => 1 | _ => 0 end.
Definition f_push (x : option bthread) : list value := match x with Some (BPush args) => args | _ => [] end.
Definition pushes (l : list (option bthread)) : list value := concat (f_push <$> l).
Lemma pushes_insert l t x y : l !! t = Some x → pushes (<[t := y]> l) ++ f_push x ≡ₚ pushes l ++ f_push y.
Proof.
  unfold pushes. revert t. induction l as [|z l IH]; intros [|t] H; simpl in *; simplify_eq.
  - simpl. rewrite (Permutation_app_comm (f_push y)), (Permutation_app_comm (f_push x) (concat _)).
    rewrite <- !app_assoc. by rewrite (Permutation_app_comm (f_push y)).
  - rewrite <- !app_assoc. by rewrite IH.
Qed.
Lemma pushes_snoc l x : pushes (l ++ [x]) = pushes l ++ f_push x.
Proof. unfold pushes. rewrite fmap_app, concat_app. simpl. by rewrite app_nil_r. Qed.

Definition all_in (ls : list blabel) : Prop := length (lcounts ls) ≤ sc.
(** What a check that passed its server comparison knows. *)
Definition chk_ok (s : bst) (x : bthread) : Prop :=
  match x with
  | BChkEA e => e = None ∨ e = Some sc
  | BChkAE a => a ≤ b_act s
  | BChkLen => sc ≤ b_act s
  | BChkCli n => sc ≤ b_act s ∧ n ≤ length (b_resp s)
  | BClear | BCall => sc ≤ b_act s ∧ b_cli s ≤ length (b_resp s)
  | _ => True
  end.
Record cinv (ls : list blabel) (s : bst) : Prop := {
  ci_cli : b_cli s + cnt (opt_f f_cli) (b_thr s) = sum_list (lcounts ls);
  ci_srv : b_act s + cnt (opt_f f_srv) (b_thr s) = length (lcounts ls);
  ci_resp : b_resp s ++ pushes (b_thr s) ≡ₚ concat (lreplies ls);
  ci_exp : b_exp s = None ∨ b_exp s = Some sc;
  ci_thr : all_in ls → ∀ t x, b_thr s !! t = Some (Some x) → chk_ok s x;
  ci_calls : all_in ls → ∀ c, c ∈ b_calls s →
    (∃ l rest, c = err_result single l ∧ l ++ rest ≡ₚ concat (lreplies ls)) ∨
    (∃ l rest, c = ok_result single l ∧ length (lcounts ls) = sc ∧ sum_list (lcounts ls) ≤ length l ∧ l ++ rest ≡ₚ concat (lreplies ls)) }.

Lemma all_in_mono ls l : all_in (ls ++ [l]) → all_in ls.
Proof. unfold all_in, lcounts. rewrite omap_app, app_length. lia. Qed.
Lemma lcounts_run ls t ef : lcounts (ls ++ [LbRun t ef]) = lcounts ls.
Proof. unfold lcounts. rewrite omap_app. simpl. by rewrite app_nil_r. Qed.
Lemma lreplies_run ls t ef : lreplies (ls ++ [LbRun t ef]) = lreplies ls.
Proof. unfold lreplies. rewrite omap_app. simpl. by rewrite app_nil_r. Qed.
Lemma cnt_f_zero (f g : bthread → nat) ts : (∀ x, 0 < f x → 0 < g x) → cnt (opt_f g) ts = 0 → cnt (opt_f f) ts = 0.
Proof.
  intros H. unfold cnt. induction ts as [|[x|] ts IH]; simpl; [done| |done]. specialize (H x). intros. destruct (f x); [|lia]. apply IH. lia.
Qed.

Lemma cinv_run ls s t ef x y s' : cinv ls s → b_thr s !! t = Some (Some x) →
  b_thr s' = <[t := y]> (b_thr s) →
  b_cli s' + opt_f f_cli y = b_cli s + f_cli x →
  b_act s' + opt_f f_srv y = b_act s + f_srv x →
  b_resp s' ++ f_push y = b_resp s ++ f_push (Some x) →
  (b_exp s' = b_exp s ∨ b_exp s' = Some sc) →
  b_act s ≤ b_act s' → (∃ more, b_resp s' = b_resp s ++ more) →
  (b_cli s' ≠ b_cli s → b_act s < length (lcounts ls)) →
  (all_in ls → chk_ok s x → ∀ z, y = Some z → chk_ok s' z) →
  (b_calls s' = b_calls s ∨ (b_calls s' = b_calls s ++ [err_result single (b_resp s)]) ∨
    (b_calls s' = b_calls s ++ [ok_result single (b_resp s)] ∧ x = BCall)) →
  cinv (ls ++ [LbRun t ef]) s'.
Proof.
  intros [I1 I2 I3 I4 I5 I6] Ht Et Hc Ha Hr He Hact [more Hmore] Hcl Hy Hcalls.
  pose proof (cnt_insert (opt_f f_cli) _ _ _ y Ht) as C1. pose proof (cnt_insert (opt_f f_srv) _ _ _ y Ht) as C2.
  pose proof (pushes_insert _ _ _ y Ht) as C3. simpl opt_f in C1, C2.
  assert (all_in (ls ++ [LbRun t ef]) → all_in ls) as Hin by apply all_in_mono.
  split; rewrite ?lcounts_run, ?lreplies_run.
  - rewrite Et. lia.
  - rewrite Et. lia.
  - rewrite Et, <- I3.
    assert (b_resp s' ++ pushes (<[t := y]> (b_thr s)) ++ f_push (Some x) ≡ₚ b_resp s ++ pushes (b_thr s) ++ f_push (Some x)) as Hp.
    { rewrite C3. rewrite (Permutation_app_comm (pushes (b_thr s)) (f_push y)), app_assoc, Hr.
      rewrite (Permutation_app_comm (pushes (b_thr s))). by rewrite app_assoc. }
    rewrite !app_assoc in Hp. by apply Permutation_app_inv_r in Hp.
  - destruct He as [->| ->]; auto.
  - intros Hall u z. rewrite Et. intros Hz. apply list_lookup_insert_Some in Hz as [(_&Ez&_)|[_ Hz]].
    + apply Hy; eauto.
    + specialize (I5 (Hin Hall) u z Hz). unfold all_in in *. rewrite lcounts_run in Hall.
      assert (length (b_resp s) ≤ length (b_resp s')) by (rewrite Hmore, app_length; lia).
      destruct z; simpl in *; try done; try lia; split; try lia; destruct (decide (b_cli s' = b_cli s)) as [Hq|Hq]; try lia; specialize (Hcl Hq); lia.
  - intros Hall c Hc'. specialize (I6 (Hin Hall)). destruct Hcalls as [Hcalls|[Hcalls|[Hcalls ->]]]; rewrite Hcalls in Hc'.
    + by apply I6.
    + apply elem_of_app in Hc' as [Hc'|Hc']; [by apply I6|]. apply elem_of_list_singleton in Hc' as ->. left. eauto.
    + apply elem_of_app in Hc' as [Hc'|Hc']; [by apply I6|]. apply elem_of_list_singleton in Hc' as ->. right.
      destruct (I5 (Hin Hall) _ _ Ht) as [H1 H2]. unfold all_in in Hall. rewrite lcounts_run in Hall.
      assert (cnt (opt_f f_srv) (b_thr s) = 0) as Hz by lia.
      assert (cnt (opt_f f_cli) (b_thr s) = 0) as Hz'. { eapply cnt_f_zero; [|exact Hz]. intros [] Hp; simpl in *; lia. }
      exists (b_resp s), (pushes (b_thr s)). split_and!; [done|lia|lia|done].
Qed.

Lemma cinv_spawn ls l s x : cinv ls s → sum_list (lcounts (ls ++ [l])) = sum_list (lcounts ls) + f_cli x →
  length (lcounts (ls ++ [l])) = length (lcounts ls) + f_srv x →
  concat (lreplies (ls ++ [l])) = concat (lreplies ls) ++ f_push (Some x) → (∀ s, chk_ok s x) →
  (sum_list (lcounts (ls ++ [l])) ≠ sum_list (lcounts ls) → f_srv x ≠ 0) →
  cinv (ls ++ [l]) (b_spawn x s).
Proof.
  intros [I1 I2 I3 I4 I5 I6] H1 H2 H3 H4 H5. split; cbn [b_spawn b_resp b_timed b_exp b_act b_cli b_armed b_thr b_calls].
  - rewrite cnt_snoc. simpl. lia.
  - rewrite cnt_snoc. simpl. lia.
  - rewrite pushes_snoc, H3, <- I3. by rewrite app_assoc.
  - done.
  - intros Hall t z Hz. apply lookup_app_Some in Hz as [Hz|[_ Hz]].
    + apply all_in_mono in Hall. specialize (I5 Hall t z Hz). by destruct z.
    + apply list_lookup_singleton_Some in Hz as [_ [= <-]]. apply H4.
  - intros Hall c Hc. pose proof (all_in_mono _ _ Hall) as Hall'. unfold all_in in Hall.
    destruct (I6 Hall' c Hc) as [(l'&rest&->&Hp)|(l'&rest&->&Hn&Hl&Hp)].
    + left. exists l', (rest ++ f_push (Some x)). split; [done|]. by rewrite H3, <- Hp, app_assoc.
    + right. exists l', (rest ++ f_push (Some x)). split; [done|]. split; [lia|]. split; [lia|]. by rewrite H3, <- Hp, app_assoc.
Qed.
Lemma cinv_step ls l s s' : cinv ls s → step l s = Some s' → cinv (ls ++ [l]) s'.
Proof.
  intros Hi. destruct l as [n|args| | |t ef]; cbn [bstep].
  - intros [= <-]. apply cinv_spawn; unfold lcounts, lreplies; rewrite ?omap_app, ?sum_list_app, ?app_length, ?concat_app; simpl; rewrite ?app_nil_r; try done; lia.
  - intros [= <-]. apply cinv_spawn; unfold lcounts, lreplies; rewrite ?omap_app, ?sum_list_app, ?app_length, ?concat_app; simpl; rewrite ?app_nil_r; try done; lia.
  - intros [= <-]. apply cinv_spawn; unfold lcounts, lreplies; rewrite ?omap_app, ?sum_list_app, ?app_length, ?concat_app; simpl; rewrite ?app_nil_r; try done; lia.
  - destruct (b_armed s); [|done]. intros [= <-]. apply cinv_spawn; unfold lcounts, lreplies; rewrite ?omap_app, ?sum_list_app, ?app_length, ?concat_app; simpl; rewrite ?app_nil_r; try done; try lia.
    destruct Hi as [I1 I2 I3 I4 I5 I6]. by split.
  - destruct (b_thr s !! t) as [[x|]|] eqn:Ht; [|done..]. intros [= <-].
    assert (length (b_thr s) = length (b_thr s)) by done.
    pose proof Hi as [I1 I2 I3 I4 I5 I6]. pose proof (cnt_lookup (opt_f f_srv) _ _ _ Ht) as Hle.
    destruct x; simpl bstep_thr;
      try (destruct (b_timed s)); try (destruct ef); repeat case_decide;
      (eapply cinv_run; [exact Hi|exact Ht|reflexivity|simpl; lia|simpl; lia|simpl; by rewrite ?app_nil_r|simpl; auto|simpl; lia
        |simpl; first [by exists []; rewrite app_nil_r|by eexists]|simpl in *; intros; lia| |simpl; auto]);
      intros Hall Hx z [= <-]; simpl in *; try done; try lia; try (split; lia); auto.
    all: first [destruct Hx as [Hx|Hx]; rewrite Hx in H0; [done|injection H0 as <-; done] | destruct I4 as [E|E]; rewrite E in H0; [done|injection H0 as <-; lia]].
Qed.
Lemma cinv0 : cinv [] bst0.
Proof. split; try done; [by left|]. intros _ c Hc. by apply elem_of_nil in Hc. Qed.
Lemma bexec_inv ls s : exec ls bst0 = Some s → cinv ls s.
Proof. apply (bexec_ind cinv); [apply cinv0|]. intros. by eapply cinv_step. Qed.

(** *** The timer *)
Definition f_timer (x : bthread) : nat := match x with BTimeSet | BTimeCall => 1 | _ => 0 end.
Definition f_end (x : bthread) : nat := match x with BTimeSet | BTimeCall | BCall => 1 | _ => 0 end.
Definition b2n (b : bool) : nat := if b then 1 else 0.
Record tinv (s : bst) : Prop := {
  ti_err : cnt is_err (b_calls s) + cnt (opt_f f_timer) (b_thr s) + b2n (b_armed s) ≤ 1;
  ti_end : 1 ≤ length (b_calls s) + cnt (opt_f f_end) (b_thr s) + b2n (b_armed s) }.
Lemma ok_not_err l : is_err (ok_result single l) = 0.
Proof. unfold ok_result. destruct single; [|done]. by destruct l as [|[]]. Qed.
Lemma err_is_err l : is_err (err_result single l) = 1.
Proof. unfold err_result. by destruct single. Qed.
Lemma tinv_step l s s' : tinv s → step l s = Some s' → tinv s'.
Proof.
  intros [I1 I2]. destruct l as [n|args| | |t ef]; cbn [bstep].
  - intros [= <-]. split; simpl; rewrite cnt_snoc; simpl; lia.
  - intros [= <-]. split; simpl; rewrite cnt_snoc; simpl; lia.
  - intros [= <-]. split; simpl; rewrite cnt_snoc; simpl; lia.
  - destruct (b_armed s) eqn:E; [|done]. intros [= <-]. split; simpl in *; rewrite cnt_snoc; simpl; lia.
  - destruct (b_thr s !! t) as [[x|]|] eqn:Ht; [|done..]. intros [= <-].
    assert (∀ y, cnt (opt_f f_timer) (<[t := y]> (b_thr s)) + f_timer x = cnt (opt_f f_timer) (b_thr s) + opt_f f_timer y) as C1.
    { intros y. apply (cnt_insert (opt_f f_timer) _ _ _ y Ht). }
    assert (∀ y, cnt (opt_f f_end) (<[t := y]> (b_thr s)) + f_end x = cnt (opt_f f_end) (b_thr s) + opt_f f_end y) as C2.
    { intros y. apply (cnt_insert (opt_f f_end) _ _ _ y Ht). }
    destruct x; split; simpl in *; rewrite ?cnt_snoc, ?app_length, ?ok_not_err, ?err_is_err; simpl;
      match goal with |- context [<[t := ?y]> _] => specialize (C1 y); specialize (C2 y) end;
      destruct ef, (b_timed s); repeat case_decide; simpl in *; destruct (b_armed s); simpl in *; lia.
Qed.
Lemma bexec_tinv ls s : exec ls bst0 = Some s → tinv s.
Proof. apply (bexec_ind (λ _, tinv)); [split; simpl; lia|]. intros _ l s1 s2. intros. by eapply tinv_step. Qed.
End conc.

Lemma bcast_conc sc ls s : bexec sc false ls bst0 = Some s → length (lcounts ls) ≤ sc →
  (∀ a, a ∈ lreplies ls → length a = 1) → (length (lcounts ls) = sc → length (lreplies ls) ≤ sum_list (lcounts ls)) →
  ∀ l, BOk l ∈ b_calls s → length (lcounts ls) = sc ∧ length (lreplies ls) = sum_list (lcounts ls) ∧ l ≡ₚ concat (lreplies ls).
Proof.
  intros H H1 H2 H3 l Hl. destruct (bexec_inv _ _ _ _ H) as [_ _ _ _ _ I6].
  assert (length (concat (lreplies ls)) = length (lreplies ls)) as Hlen.
  { clear -H2. induction (lreplies ls) as [|a l IH]; [done|]. simpl. rewrite app_length, IH.
    - rewrite H2; [done|by left].
    - intros a' Ha'. apply H2. by right. }
  destruct (I6 H1 _ Hl) as [(l'&rest&E&_)|(l'&rest&E&Hn&Hs&Hp)]; [done|]. injection E as <-. specialize (H3 Hn).
  pose proof (Permutation_length Hp) as Hq. rewrite app_length in Hq. rewrite Hlen in Hq.
  assert (rest = []) as -> by (destruct rest; simpl in *; [done|lia]). rewrite app_nil_r in Hp.
  split; [done|]. split; [simpl in Hq; lia|done].
Qed.
Lemma bcast_timer sc single ls s : bexec sc single ls bst0 = Some s →
  length (filter (λ c, is_err c = 1) (b_calls s)) ≤ 1 ∧ (bquiet s → 1 ≤ length (b_calls s)).
Proof.
  intros H. destruct (bexec_tinv _ _ _ _ H) as [I1 I2]. split.
  - assert (length (filter (λ c, is_err c = 1) (b_calls s)) = cnt is_err (b_calls s)); [|lia]. clear.
    unfold cnt. induction (b_calls s) as [|[] cs IH]; rewrite ?filter_cons; simpl; try done. by rewrite IH.
  - intros [Hq1 Hq2]. rewrite Hq1, cnt_zero in I2; [simpl in I2; lia|]. intros t x Hx. by rewrite (Hq2 _ _ Hx).
Qed.

Lemma first_outcome_ok sc es : ∀ past l, first_outcome sc past es = Some (OutOk l) →
  ∃ pre post, es = pre ++ post ∧ complete sc (past ++ pre) ∧ l = concat (replies_of (past ++ pre)).
Proof.
  induction es as [|e es IH]; intros past l; cbn [first_outcome]; [done|].
  assert ((if decide (complete sc (past ++ [e])) then Some (OutOk (concat (replies_of (past ++ [e])))) else first_outcome sc (past ++ [e]) es) = Some (OutOk l) →
    ∃ pre post, e :: es = pre ++ post ∧ complete sc (past ++ pre) ∧ l = concat (replies_of (past ++ pre))) as Hg.
  { case_decide as Hc.
    - intros [= <-]. by exists [e], es.
    - intros H. destruct (IH _ _ H) as (pre&post&->&H1&H2). exists (e :: pre), post.
      rewrite (app_assoc past [e] pre : past ++ e :: pre = _). done. }
  destruct e; try done.
Qed.
Lemma array_reply sc es l : n_finish es ≤ 1 → (∀ a, a ∈ replies_of es → a = [VArr l]) →
  (∀ pre, pre `prefix_of` es → complete sc pre → 1 ≤ length (replies_of pre)) →
  b_calls (bserial sc true es) =
    match first_outcome sc [] es with Some (OutOk _) => [BOk l] | Some (OutErr _) => [BErr []] | None => [] end.
Proof.
  intros H1 H2 H3. rewrite serial_outcome; [|intros a Ha; by rewrite (H2 a Ha)|done].
  destruct (first_outcome sc [] es) as [[l'|l']|] eqn:E; [|done..]. simpl. f_equal.
  destruct (first_outcome_ok _ _ _ _ E) as (pre&post&->&Hc&->). rewrite app_nil_l in *.
  specialize (H3 pre (prefix_app_r _ _ _ (reflexivity _)) Hc).
  destruct (replies_of pre) as [|a as_] eqn:Er; [simpl in H3; lia|].
  assert (a = [VArr l]) as ->; [|done]. apply H2. rewrite replies_app, Er. by left.
Qed.
