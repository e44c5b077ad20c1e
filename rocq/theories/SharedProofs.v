From Verif Require Import Base GoTypes Shared SharedSpec.

Lemma wr_len ws a : length (wr ws a) = length a.
Proof. revert a. induction ws as [|w ws IH]; intros a; [done|]. cbn. change (length (wr ws (<[w.1:=w.2]> a)) = length a). by rewrite IH, insert_length. Qed.
Lemma last_write_app k a b : last_write k (a ++ b) = match last_write k b with Some x => Some x | None => last_write k a end.
Proof. unfold last_write. rewrite omap_app, last_app. done. Qed.
Lemma wr_ok ws a : overwritten a ws (wr ws a).
Proof.
  split; [apply wr_len|]. induction ws as [|w ws IH] using rev_ind; intros k x Hk; [done|].
  unfold wr. rewrite foldl_app. cbn. fold (wr ws a). rewrite last_write_app. unfold last_write at 1. cbn. case_decide as E.
  - subst k. cbn. apply list_lookup_insert. rewrite wr_len. by eapply lookup_lt_Some.
  - rewrite list_lookup_insert_ne by done. by apply IH.
Qed.
Lemma overwritten_nil a : overwritten a [] a.
Proof. by split. Qed.
Lemma overwritten_trans a ws b ws' c : overwritten a ws b → overwritten b ws' c → overwritten a (ws ++ ws') c.
Proof.
  intros [H1 H2] [H3 H4]. split; [by rewrite H3|]. intros k x Hk. rewrite (H4 k _ (H2 k x Hk)), last_write_app. by destruct (last_write k ws').
Qed.
Lemma overwritten_none a v : overwritten a [] v → v = a.
Proof.
  intros [Hl H]. apply list_eq. intros k. destruct (a !! k) as [x|] eqn:E; [by rewrite (H k x E)|]. apply lookup_ge_None in E. apply lookup_ge_None. lia.
Qed.
Lemma made_S h hs a vs n : made (h :: hs) (a :: vs) (S n) = h a ++ made hs vs n.
Proof. done. Qed.
Lemma made_0 hs vs : made hs vs 0 = [].
Proof. done. Qed.
Lemma pass_ok hs a : length (pass hs a).1 = length hs ∧ (∀ i v, (pass hs a).1 !! i = Some v → overwritten a (made hs (pass hs a).1 i) v) ∧
  overwritten a (made hs (pass hs a).1 (length hs)) (pass hs a).2.
Proof.
  revert a. induction hs as [|h hs IH]; intros a.
  { cbn. split; [done|]. split; [done|apply overwritten_nil]. }
  destruct (IH (wr (h a) a)) as (H1 & H2 & H3). cbn [pass fst snd]. cbn [length]. split; [by rewrite H1|]. split.
  - intros [|i] v Hv; cbn in Hv; [injection Hv as <-; rewrite made_0; apply overwritten_nil|]. rewrite made_S. eapply overwritten_trans; [apply wr_ok|by apply H2].
  - rewrite made_S. eapply overwritten_trans; [apply wr_ok|done].
Qed.
Lemma through_ok ms a : length (through ms a).1 ≤ length ms ∧ (∀ i v, (through ms a).1 !! i = Some v → overwritten a (made (mw_hook <$> ms) (through ms a).1 i) v) ∧
  ∀ ev args, (through ms a).2 = OEvent ev args → length (through ms a).1 = length ms ∧ overwritten a (made (mw_hook <$> ms) (through ms a).1 (length ms)) (VStr ev :: args).
Proof.
  revert a. induction ms as [|m ms IH]; intros a.
  { cbn. split; [done|]. split; [done|]. intros ev args H. split; [done|]. destruct a as [|[] a]; simplify_eq. apply overwritten_nil. }
  destruct (IH (wr (mw_hook m a) a)) as (H1 & H2 & H3). cbn [through]. destruct (mw_err m a) as [e|]; cbn [fst snd length].
  - split; [lia|]. split; [|done]. intros [|i] v Hv; cbn in Hv; [injection Hv as <-; apply overwritten_nil|done].
  - split; [lia|]. split.
    + intros [|i] v Hv; cbn in Hv; [injection Hv as <-; apply overwritten_nil|]. rewrite fmap_cons, made_S. eapply overwritten_trans; [apply wr_ok|by apply H2].
    + intros ev args He. destruct (H3 ev args He) as [H4 H5]. split; [by rewrite H4|]. rewrite fmap_cons, made_S. eapply overwritten_trans; [apply wr_ok|done].
Qed.
Lemma made_app hs hs' vs vs' n : length vs = length hs → made (hs ++ hs') (vs ++ vs') (length hs + n) = made hs vs (length hs) ++ made hs' vs' n.
Proof.
  revert vs. induction hs as [|h hs IH]; intros [|v vs] H; try done. cbn [app length Nat.add]. rewrite !made_S, IH by (by injection H). by rewrite app_assoc.
Qed.
Lemma made_app_l hs hs' vs vs' n : length vs = length hs → n ≤ length hs → made (hs ++ hs') (vs ++ vs') n = made hs vs n.
Proof.
  revert vs n. induction hs as [|h hs IH]; intros [|v vs] [|n] H Hn; try done; [cbn in Hn; lia|]. cbn [app]. rewrite !made_S, IH; [done|by injection H|cbn in Hn; lia].
Qed.
Lemma received anys ms a i v : (receive anys ms a).1 !! i = Some v → overwritten a (made (anys ++ (mw_hook <$> ms)) (receive anys ms a).1 i) v.
Proof.
  unfold receive. cbn [fst snd]. destruct (pass_ok anys a) as (H1 & H2 & H3). destruct (through_ok ms (pass anys a).2) as (_ & J2 & _).
  intros [Hv|[Hl Hv]]%lookup_app_Some.
  - rewrite made_app_l; [by apply H2|done|]. apply lookup_lt_Some in Hv. lia.
  - replace i with (length anys + (i - length (pass anys a).1)) by lia. rewrite made_app by done. eapply overwritten_trans; [exact H3|by apply J2].
Qed.
Lemma dispatched anys ms a ev args : (receive anys ms a).2 = OEvent ev args → length (receive anys ms a).1 = length anys + length ms ∧
  overwritten a (made (anys ++ (mw_hook <$> ms)) (receive anys ms a).1 (length anys + length ms)) (VStr ev :: args).
Proof.
  unfold receive. cbn [fst snd]. destruct (pass_ok anys a) as (H1 & H2 & H3). destruct (through_ok ms (pass anys a).2) as (_ & _ & J3). intros He.
  destruct (J3 ev args He) as [J4 J5]. split; [by rewrite app_length, H1, J4|]. rewrite made_app by done. by eapply overwritten_trans.
Qed.
Lemma made_quiet hs vs n : Forall quiet hs → made hs vs n = [].
Proof.
  intros H. unfold made. revert vs n. induction H as [|h hs Hh _ IH]; intros vs n; [by destruct n|]. destruct n as [|n]; [done|]. destruct vs as [|v vs]; [done|]. cbn. rewrite (Hh v). apply IH.
Qed.
Lemma received_quiet anys ms a i v : Forall quiet anys → Forall quiet (mw_hook <$> ms) → (receive anys ms a).1 !! i = Some v → v = a.
Proof. intros H1 H2 Hv. apply overwritten_none. apply received in Hv. rewrite made_quiet in Hv; [done|]. by apply Forall_app. Qed.
Lemma dispatched_quiet anys ms a ev args : Forall quiet anys → Forall quiet (mw_hook <$> ms) → (receive anys ms a).2 = OEvent ev args → a = VStr ev :: args.
Proof. intros H1 H2 He. apply dispatched in He as [_ He]. symmetry. apply overwritten_none. rewrite made_quiet in He; [done|]. by apply Forall_app. Qed.
Lemma emitted hs a : overwritten a (made hs (emit_direct hs a).1 (length hs)) (emit_direct hs a).2 ∧
  ∀ i v, (emit_direct hs a).1 !! i = Some v → overwritten a (made hs (emit_direct hs a).1 i) v.
Proof. destruct (pass_ok hs a) as (_ & H2 & H3). done. Qed.
Lemma emitted_quiet hs a : Forall quiet hs → (emit_direct hs a).2 = a.
Proof. intros H. apply overwritten_none. destruct (emitted hs a) as [He _]. by rewrite made_quiet in He. Qed.
Lemma stored targets a offset : let x := broadcast_stored targets a offset in let hs := concat targets in
  x.1.2 = replicate (length targets) (a ++ [VStr offset]) ∧ (∀ i v, x.1.1 !! i = Some v → overwritten (a ++ [VStr offset]) (made hs x.1.1 i) v) ∧
  overwritten (a ++ [VStr offset]) (made hs x.1.1 (length hs)) x.2 ∧ (Forall quiet hs → x.2 = a ++ [VStr offset]).
Proof.
  cbv zeta. unfold broadcast_stored, broadcast. cbn [fst snd]. destruct (pass_ok (concat targets) (a ++ [VStr offset])) as (_ & H2 & H3). split; [clear; by induction targets as [|t ts IH]; cbn; [|f_equal]|].
  split; [done|]. split; [done|]. intros Hq. apply overwritten_none. by rewrite made_quiet in H3.
Qed.
Lemma all_quiet anys ms a : Forall quiet anys → Forall quiet (mw_hook <$> ms) →
  (∀ i v, (receive anys ms a).1 !! i = Some v → v = a) ∧ (∀ ev args, (receive anys ms a).2 = OEvent ev args → a = VStr ev :: args).
Proof. intros H1 H2. split; [intros i v; by apply received_quiet|intros ev args; by apply dispatched_quiet]. Qed.
Lemma emitted_all hs a : overwritten a (made hs (emit_direct hs a).1 (length hs)) (emit_direct hs a).2 ∧
  (∀ i v, (emit_direct hs a).1 !! i = Some v → overwritten a (made hs (emit_direct hs a).1 i) v) ∧ (Forall quiet hs → (emit_direct hs a).2 = a).
Proof. destruct (emitted hs a) as [H1 H2]. split; [done|]. split; [done|]. apply emitted_quiet. Qed.
Lemma through_verdict ms a : let x := through ms a in
  (∀ e, x.2 = OErr e → ∃ n m v, length x.1 = S n ∧ ms !! n = Some m ∧ x.1 !! n = Some v ∧ mw_err m v = Some e) ∧
  (∀ n m v, ms !! n = Some m → x.1 !! n = Some v → (∀ e, mw_err m v = Some e → x.2 = OErr e)) ∧
  (x.2 = OPanic → length x.1 = length ms ∧ ∃ w, overwritten a (made (mw_hook <$> ms) x.1 (length ms)) w ∧ ∀ ev, head w ≠ Some (VStr ev)).
Proof.
  cbv zeta. revert a. induction ms as [|m ms IH]; intros a.
  { cbn. split; [by destruct a as [|[] a]|]. split; [done|]. intros Hp. split; [done|]. exists a. split; [apply overwritten_nil|]. by destruct a as [|[] a]. }
  destruct (IH (wr (mw_hook m a) a)) as (H1 & H2 & H3). cbn [through]. destruct (mw_err m a) as [e|] eqn:E; cbn [fst snd length].
  - split; [intros ? [= <-]; by exists 0, m, a|]. split; [|done]. intros [|n] m' v Hm Hv e' He; cbn in Hm, Hv; simplify_eq; done.
  - split; [|split].
    + intros e He. destruct (H1 e He) as (n & m' & v & Hl & Hm & Hv & Hx). exists (S n), m', v. by rewrite Hl.
    + intros [|n] m' v Hm Hv e' He; cbn in Hm, Hv; simplify_eq. by eapply H2.
    + intros Hp. destruct (H3 Hp) as [Hl (w & Hw & Hn)]. split; [by rewrite Hl|]. exists w. split; [|done]. rewrite fmap_cons, made_S. eapply overwritten_trans; [apply wr_ok|done].
Qed.
Lemma verdict anys ms a : let x := receive anys ms a in
  (∀ e, x.2 = OErr e ↔ ∃ n m v, ms !! n = Some m ∧ x.1 !! (length anys + n) = Some v ∧ mw_err m v = Some e) ∧
  (∀ n m v e, ms !! n = Some m → x.1 !! (length anys + n) = Some v → mw_err m v = Some e → length x.1 = length anys + S n) ∧
  (x.2 = OPanic → length x.1 = length anys + length ms ∧
     ∃ w, overwritten a (made (anys ++ (mw_hook <$> ms)) x.1 (length anys + length ms)) w ∧ ∀ ev, head w ≠ Some (VStr ev)).
Proof.
  cbv zeta. unfold receive. cbn [fst snd]. destruct (pass_ok anys a) as (H1 & _ & H3). set (b := (pass anys a).2) in *. destruct (through_verdict ms b) as (J1 & J2 & J3).
  assert (∀ n, ((pass anys a).1 ++ (through ms b).1) !! (length anys + n) = (through ms b).1 !! n) as Hl. { intros n. rewrite <- H1. rewrite lookup_app_r by lia. f_equal. lia. }
  split; [|split].
  - intros e. split.
    + intros He. destruct (J1 e He) as (n & m & v & _ & Hm & Hv & Hx). exists n, m, v. by rewrite Hl.
    + intros (n & m & v & Hm & Hv & Hx). rewrite Hl in Hv. by eapply J2.
  - intros n m v e Hm Hv Hx. rewrite Hl in Hv. rewrite app_length, H1. f_equal. clearbody b. clear -Hm Hv Hx. revert b n Hm Hv. induction ms as [|m' ms IH]; intros b n Hm Hv; [done|].
    cbn [through] in *. destruct (mw_err m' b) as [e'|] eqn:E; cbn [fst snd length] in *.
    + destruct n as [|n]; [done|]. done.
    + destruct n as [|n]; cbn in Hm, Hv; [simplify_eq|]. f_equal. by apply IH.
  - intros Hp. destruct (J3 Hp) as [Hn (w & Hw & Hh)]. split; [by rewrite app_length, H1, Hn|]. exists w. split; [|done]. rewrite made_app by done. by eapply overwritten_trans.
Qed.
