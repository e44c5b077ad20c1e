(** Proofs about [BcastAck.v]. *)
From Verif Require Import Base GoTypes BcastAck BcastAckSpec AcksProofs.

(** *** Handlers that do not overlap *)
Section serial.
Context (sc : nat) (single : bool).
Local Notation ser1 := (bserial1 sc single).
Local Notation step := (bstep_thr sc single).

Lemma bset_last r td e a c ar ts x y cs : b_set (length ts) y (BSt r td e a c ar (ts ++ [x]) cs) = BSt r td e a c ar (ts ++ [y]) cs.
Proof. unfold b_set. cbn. f_equal. rewrite insert_app_r_alt by lia. by rewrite Nat.sub_diag. Qed.
Lemma brun_last n r td e a c ar ts x cs :
  brun_thr sc single (S n) (length ts) (BSt r td e a c ar (ts ++ [Some x]) cs) =
  brun_thr sc single n (length ts) (step (length ts) true x (BSt r td e a c ar (ts ++ [Some x]) cs)).
Proof. simpl. by rewrite list_lookup_middle. Qed.
Lemma brun_stop n r td e a c ar ts cs :
  brun_thr sc single n (length ts) (BSt r td e a c ar (ts ++ [None]) cs) = BSt r td e a c ar (ts ++ [None]) cs.
Proof. destruct n; [done|]. simpl. by rewrite list_lookup_middle. Qed.
Ltac bgo := rewrite brun_last; unfold bstep_thr; cbn [b_resp b_timed b_exp b_act b_cli b_armed b_thr b_calls]; rewrite bset_last.
Lemma bcheck n r td e a c ar ts cs : 
  brun_thr sc single (7 + n) (length ts) (BSt r td e a c ar (ts ++ [Some BChkTimed]) cs) =
  if decide (td = false ∧ e = Some a ∧ length r = c) then BSt r td e a c false (ts ++ [None]) (cs ++ [ok_result single r])
  else BSt r td e a c ar (ts ++ [None]) cs.
Proof.
  cbn [Nat.add]. bgo. destruct td; [rewrite brun_stop, decide_False; [done|naive_solver]|].
  bgo. bgo. destruct (decide (e = Some a)) as [He|He]; [|rewrite brun_stop, decide_False; [done|naive_solver]].
  bgo. bgo. destruct (decide (length r = c)) as [Hc|Hc]; [|rewrite brun_stop, decide_False; [done|naive_solver]].
  bgo. bgo. rewrite decide_True by done. apply brun_stop.
Qed.
Lemma ser_count r td e a c ar ts cs n : ser1 (BSt r td e a c ar ts cs) (EbCount n) =
  if decide (td = false ∧ e = Some (S a) ∧ length r = c + n) then BSt r td e (S a) (c + n) false (ts ++ [None]) (cs ++ [ok_result single r])
  else BSt r td e (S a) (c + n) ar (ts ++ [None]) cs.
Proof. unfold bserial1. cbn [eb_label bstep]. unfold b_spawn. cbn [b_resp b_timed b_exp b_act b_cli b_armed b_thr b_calls]. bgo. bgo. apply (bcheck 0). Qed.
Lemma ser_reply r td e a c ar ts cs args : ser1 (BSt r td e a c ar ts cs) (EbReply args) =
  if decide (td = false ∧ e = Some a ∧ length (r ++ args) = c) then BSt (r ++ args) td e a c false (ts ++ [None]) (cs ++ [ok_result single (r ++ args)])
  else BSt (r ++ args) td e a c ar (ts ++ [None]) cs.
Proof. unfold bserial1. cbn [eb_label bstep]. unfold b_spawn. cbn [b_resp b_timed b_exp b_act b_cli b_armed b_thr b_calls]. bgo. apply (bcheck 1). Qed.
Lemma ser_finish r td e a c ar ts cs : ser1 (BSt r td e a c ar ts cs) EbFinish =
  if decide (td = false ∧ Some sc = Some a ∧ length r = c) then BSt r td (Some sc) a c false (ts ++ [None]) (cs ++ [ok_result single r])
  else BSt r td (Some sc) a c ar (ts ++ [None]) cs.
Proof. unfold bserial1. cbn [eb_label bstep]. unfold b_spawn. cbn [b_resp b_timed b_exp b_act b_cli b_armed b_thr b_calls]. bgo. apply (bcheck 1). Qed.
Lemma ser_timer r td e a c ar ts cs : ser1 (BSt r td e a c ar ts cs) EbTimer =
  if ar then BSt r true e a c false (ts ++ [None]) (cs ++ [err_result single r]) else BSt r td e a c ar ts cs.
Proof.
  unfold bserial1. cbn [eb_label bstep]. unfold b_spawn. cbn [b_resp b_timed b_exp b_act b_cli b_armed b_thr b_calls].
  destruct ar; [|done]. bgo. bgo. apply brun_stop.
Qed.

Lemma first_outcome_snoc past todo e :
  first_outcome sc past (todo ++ [e]) =
    match first_outcome sc past todo with Some o => Some o | None => first_outcome sc (past ++ todo) [e] end.
Proof.
  revert past. induction todo as [|e' todo IH]; intros past; [by rewrite app_nil_r|].
  rewrite <- app_comm_cons. cbn [first_outcome]. rewrite (IH (past ++ [e'])), <- (app_assoc past [e'] todo).
  change ([e'] ++ todo) with (e' :: todo). destruct e'; try (by case_decide); done.
Qed.

Record sinv (es : list bevent) (s : bst) : Prop := {
  si_resp : b_resp s = concat (replies_of es);
  si_act : b_act s = length (counts_of es);
  si_cli : b_cli s = sum_list (counts_of es);
  si_exp : b_exp s = if decide (EbFinish ∈ es) then Some sc else None;
  si_out : match first_outcome sc [] es with
           | None => b_timed s = false ∧ b_armed s = true ∧ b_calls s = []
           | Some (OutErr l) => b_timed s = true ∧ b_armed s = false ∧ b_calls s = [err_result single l]
           | Some (OutOk l) => b_timed s = false ∧ b_armed s = false ∧ b_calls s = [ok_result single l] ∧
               EbFinish ∈ es ∧ sc ≤ length (counts_of es) ∧
               (length (counts_of es) = sc → sum_list (counts_of es) ≤ length (replies_of es))
           end }.
Lemma one_arg_length es : one_arg es → length (concat (replies_of es)) = length (replies_of es).
Proof.
  unfold one_arg. induction (replies_of es) as [|a l IH]; intros H; [done|]. simpl. rewrite app_length, IH.
  - rewrite H; [done|by left].
  - intros a' Ha'. apply H. by right.
Qed.
Lemma counts_app es1 es2 : counts_of (es1 ++ es2) = counts_of es1 ++ counts_of es2.
Proof. apply omap_app. Qed.
Lemma replies_app es1 es2 : replies_of (es1 ++ es2) = replies_of es1 ++ replies_of es2.
Proof. apply omap_app. Qed.
Lemma n_finish_in es : EbFinish ∈ es → 1 ≤ n_finish es.
Proof.
  intros (l1&l2&->)%elem_of_list_split. unfold n_finish. rewrite omap_app. simpl. rewrite app_length. simpl. lia.
Qed.
Lemma sum_list_app l1 l2 : sum_list (l1 ++ l2) = sum_list l1 + sum_list l2.
Proof. induction l1; simpl; lia. Qed.
Lemma complete_iff es s : one_arg es → b_resp s = concat (replies_of es) → b_act s = length (counts_of es) → b_cli s = sum_list (counts_of es) →
  b_exp s = (if decide (EbFinish ∈ es) then Some sc else None) →
  (b_exp s = Some (b_act s) ∧ length (b_resp s) = b_cli s) ↔ complete sc es.
Proof.
  intros H1 -> -> -> ->. rewrite one_arg_length by done. unfold complete. case_decide; naive_solver.
Qed.

Ltac bsol := rewrite ?counts_app, ?replies_app, ?concat_app, ?app_length, ?sum_list_app; cbn -[Nat.add]; rewrite ?app_nil_r; first [done|lia|congruence|(match goal with H : ∀ X, _ ≠ EbFinish → _ |- _ => by rewrite H end)|(rewrite decide_True; [done|]; apply elem_of_app; right; by left)].
Lemma sinv_step es e s : one_arg (es ++ [e]) → n_finish (es ++ [e]) ≤ 1 → sinv es s → sinv (es ++ [e]) (ser1 s e).
Proof.
  intros H1 Hf [Hr Ha Hc He Ho].
  assert (one_arg es) as H1'. { intros a Ha'. apply H1. rewrite replies_app. apply elem_of_app. by left. }
  assert (EbFinish ∈ es → e ≠ EbFinish) as Hfin.
  { intros Hin ->. apply n_finish_in in Hin. unfold n_finish in Hf, Hin. rewrite omap_app, app_length in Hf. simpl in Hf. lia. }
  assert (∀ s' cs', b_resp s' = concat (replies_of (es ++ [e])) → b_act s' = length (counts_of (es ++ [e])) →
     b_cli s' = sum_list (counts_of (es ++ [e])) → b_exp s' = (if decide (EbFinish ∈ es ++ [e]) then Some sc else None) →
     e ≠ EbTimer → b_timed s' = b_timed s →
     b_armed s' = (if decide (b_timed s = false ∧ b_exp s' = Some (b_act s') ∧ length (b_resp s') = b_cli s') then false else b_armed s) →
     b_calls s' = b_calls s ++ cs' →
     cs' = (if decide (b_timed s = false ∧ b_exp s' = Some (b_act s') ∧ length (b_resp s') = b_cli s') then [ok_result single (b_resp s')] else []) →
     sinv (es ++ [e]) s') as Hgen.
  { intros s' cs' Er Ea Ecl Ee Hnt Et Earm Ecalls Ecs. split; try done.
    pose proof (complete_iff (es ++ [e]) s' H1 Er Ea Ecl Ee) as Hcomp.
    rewrite first_outcome_snoc. rewrite app_nil_l. destruct (first_outcome sc [] es) as [[l|l]|].
    - destruct Ho as (Ho1&Ho2&Ho3&Ho4&Ho5&Ho6).
      assert (¬ complete sc (es ++ [e])) as Hnc.
      { unfold complete. rewrite counts_app, replies_app, !app_length, sum_list_app. specialize (Hfin Ho4).
        destruct e; simpl; try done; intros (_&HA&HB); lia. }
      rewrite decide_False in Earm by tauto. rewrite decide_False in Ecs by tauto. subst cs'. rewrite app_nil_r in Ecalls.
      split; [congruence|]. split; [congruence|]. split; [congruence|].
      rewrite counts_app, replies_app, !app_length, sum_list_app, elem_of_app.
      split; [by left|]. specialize (Hfin Ho4). destruct e; simpl; try done; split; try lia; intros; lia.
    - destruct Ho as (Ho1&Ho2&Ho3). rewrite decide_False in Earm by (rewrite Ho1; naive_solver). rewrite decide_False in Ecs by (rewrite Ho1; naive_solver). subst cs'.
      rewrite app_nil_r in Ecalls. split; [congruence|]. split; congruence.
    - destruct Ho as (Ho1&Ho2&Ho3). assert (first_outcome sc es [e] =
        if decide (complete sc (es ++ [e])) then Some (OutOk (concat (replies_of (es ++ [e])))) else None) as ->.
      { cbn [first_outcome]. destruct e; done. }
      destruct (decide (complete sc (es ++ [e]))) as [Hco|Hco].
      + rewrite decide_True in Earm by tauto. rewrite decide_True in Ecs by tauto. subst cs'. rewrite Ho3 in Ecalls. rewrite Ecalls, Er, Earm, Et.
        destruct Hco as (Hco1&Hco2&Hco3). split_and!; try done; lia.
      + rewrite decide_False in Earm by tauto. rewrite decide_False in Ecs by tauto. subst cs'. rewrite Ecalls, Ho3, Earm, Et. done. }
  assert (∀ X, e ≠ EbFinish → (if decide (EbFinish ∈ es ++ [e]) then X else None) = (if decide (EbFinish ∈ es) then X else None : option nat)) as Hdec.
  { intros X Hne. destruct (decide (EbFinish ∈ es)) as [Hin|Hin]; [rewrite decide_True; [done|apply elem_of_app; auto]|].
    rewrite decide_False; [done|]. intros [?|Heq%elem_of_list_singleton]%elem_of_app; [done|]. by symmetry in Heq. }
  destruct s as [r td ex a c ar ts cs]. cbn [b_resp b_timed b_exp b_act b_cli b_armed b_thr b_calls] in *.
  destruct e as [n|args| |].
  - rewrite ser_count. destruct (decide (td = false ∧ ex = Some (S a) ∧ length r = c + n)) as [Hd|Hd].
    + apply (Hgen _ [ok_result single (r)]); cbn [b_resp b_timed b_exp b_act b_cli b_armed b_thr b_calls];
        [bsol|bsol|bsol|bsol|done|done|by rewrite decide_True|by rewrite ?app_nil_r|by rewrite decide_True].
    + apply (Hgen _ []); cbn [b_resp b_timed b_exp b_act b_cli b_armed b_thr b_calls];
        [bsol|bsol|bsol|bsol|done|done|by rewrite decide_False|by rewrite ?app_nil_r|by rewrite decide_False].
  - rewrite ser_reply. destruct (decide (td = false ∧ ex = Some a ∧ length (r ++ args) = c)) as [Hd|Hd].
    + apply (Hgen _ [ok_result single (r ++ args)]); cbn [b_resp b_timed b_exp b_act b_cli b_armed b_thr b_calls];
        [bsol|bsol|bsol|bsol|done|done|by rewrite decide_True|by rewrite ?app_nil_r|by rewrite decide_True].
    + apply (Hgen _ []); cbn [b_resp b_timed b_exp b_act b_cli b_armed b_thr b_calls];
        [bsol|bsol|bsol|bsol|done|done|by rewrite decide_False|by rewrite ?app_nil_r|by rewrite decide_False].
  - rewrite ser_finish. destruct (decide (td = false ∧ Some sc = Some a ∧ length r = c)) as [Hd|Hd].
    + apply (Hgen _ [ok_result single (r)]); cbn [b_resp b_timed b_exp b_act b_cli b_armed b_thr b_calls];
        [bsol|bsol|bsol|bsol|done|done|by rewrite decide_True|by rewrite ?app_nil_r|by rewrite decide_True].
    + apply (Hgen _ []); cbn [b_resp b_timed b_exp b_act b_cli b_armed b_thr b_calls];
        [bsol|bsol|bsol|bsol|done|done|by rewrite decide_False|by rewrite ?app_nil_r|by rewrite decide_False].
  - rewrite ser_timer.
    destruct (first_outcome sc [] es) as [[l|l]|] eqn:Eo.
    + destruct Ho as (->&->&->&Ho4&Ho5&Ho6). split; cbn; rewrite ?counts_app, ?replies_app, ?app_nil_r, ?Hdec by done; simpl; rewrite ?app_nil_r; try done.
      rewrite first_outcome_snoc, Eo. split_and!; try done. apply elem_of_app; auto.
    + destruct Ho as (->&->&->). split; cbn; rewrite ?counts_app, ?replies_app, ?Hdec by done; simpl; rewrite ?app_nil_r; try done.
      by rewrite first_outcome_snoc, Eo.
    + destruct Ho as (->&->&->). split; cbn; rewrite ?counts_app, ?replies_app, ?Hdec by done; simpl; rewrite ?app_nil_r; try done.
      rewrite first_outcome_snoc, Eo. cbn. by rewrite Hr.
Qed.
Lemma serial_inv es : one_arg es → n_finish es ≤ 1 → sinv es (bserial sc single es).
Proof.
  induction es as [|e es IH] using rev_ind; intros H1 Hf.
  - split; try done.
  - unfold bserial. rewrite foldl_app. cbn [foldl]. apply sinv_step; [done|done|]. apply IH.
    + intros a Ha. apply H1. rewrite replies_app. apply elem_of_app. by left.
    + unfold n_finish in *. rewrite omap_app, app_length in Hf. lia.
Qed.
Lemma serial_outcome es : one_arg es → n_finish es ≤ 1 →
  b_calls (bserial sc single es) = match first_outcome sc [] es with Some o => [outcome_call single o] | None => [] end.
Proof.
  intros H1 Hf. destruct (serial_inv es H1 Hf) as [_ _ _ _ H]. destruct (first_outcome sc [] es) as [[]|]; naive_solver.
Qed.
End serial.
