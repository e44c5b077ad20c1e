From Coq Require Import Sorting.Sorted.
From Verif Require Import Base GoTypes AnyListeners AnyListenersSpec.

Lemma in_force_snoc h op i : in_force (h ++ [op]) i ↔
  (i = length h ∧ ∃ l, registers op l) ∨
  (in_force h i ∧ op ≠ AOff None ∧
   ∀ l, op = AOff (Some l) → registered h i l → ∃ j, in_force h j ∧ registered h j l ∧ (key h j < key h i)%Z).
Proof. unfold in_force. rewrite reverse_snoc. cbn [in_force_rev]. rewrite reverse_length, reverse_involutive. done. Qed.
Lemma in_force_lt h i : in_force h i → i < length h.
Proof.
  revert i. induction h as [|op h IH] using rev_ind; intros i.
  - by unfold in_force.
  - rewrite in_force_snoc, app_length. cbn. intros [[-> _]|[H _]]; [lia|]. apply IH in H. lia.
Qed.
Lemma key_snoc h op i : i < length h → key (h ++ [op]) i = key h i.
Proof. intros H. unfold key. by rewrite lookup_app_l. Qed.
Lemma registered_snoc h op i l : i < length h → registered (h ++ [op]) i l ↔ registered h i l.
Proof. intros H. unfold registered. by rewrite lookup_app_l. Qed.
Lemma registered_unique h i l l' : registered h i l → registered h i l' → l = l'.
Proof. intros (op & H & Hr) (op' & H' & Hr'). assert (op = op') as <- by congruence. destruct Hr as [->| ->], Hr' as [Hr'|Hr']; by inversion Hr'. Qed.
Lemma key_bounds h i : (- Z.of_nat i - 1 ≤ key h i ≤ Z.of_nat i)%Z.
Proof. unfold key. destruct (h !! i) as [[]|]; lia. Qed.

Lemma codes_distinct_snoc h op : codes_distinct (h ++ [op]) → codes_distinct h.
Proof.
  intros H l l' (i & Hi) (j & Hj). apply H; [exists i|exists j].
  - destruct Hi as [(o & Ho & Hr)|Hi]; [left; exists o|right]; rewrite lookup_app_l; try done; by apply lookup_lt_Some in Ho || apply lookup_lt_Some in Hi.
  - destruct Hj as [(o & Ho & Hr)|Hj]; [left; exists o|right]; rewrite lookup_app_l; try done; by apply lookup_lt_Some in Ho || apply lookup_lt_Some in Hj.
Qed.

Lemma StronglySorted_snoc {A} (R : A → A → Prop) l x : StronglySorted R l → Forall (λ y, R y x) l → StronglySorted R (l ++ [x]).
Proof.
  induction l as [|y l IH]; cbn; intros Hs Hf.
  - repeat constructor.
  - inversion Hs; subst. inversion Hf; subst. constructor; [by apply IH|]. rewrite Forall_app. split; [done|]. by apply Forall_cons_2; [|apply Forall_nil_2].
Qed.
Lemma StronglySorted_change {A} (R R' : A → A → Prop) l : (∀ x y, x ∈ l → y ∈ l → R x y → R' x y) → StronglySorted R l → StronglySorted R' l.
Proof.
  intros H Hs. induction Hs as [|x l Hs IH Hf]; [constructor|]. constructor.
  - apply IH. intros a b Ha Hb. apply H; by right.
  - rewrite Forall_forall in *. intros y Hy. apply H; [left|by right|by apply Hf].
Qed.

(** Splicing at the first match, on a sorted list of registrations. *)
Lemma splice_sorted (R : nat → nat → Prop) (P : nat → listener → Prop) (p : listener → bool) is ls :
  StronglySorted R is → (∀ i, ¬ R i i) → (∀ i j k, R i j → R j k → R i k) → (∀ i l l', P i l → P i l' → l = l') → Forall2 P is ls →
  ∃ is', StronglySorted R is' ∧ Forall2 P is' (splice_first p ls) ∧
         (∀ i, i ∈ is' ↔ i ∈ is ∧ ((∃ l, P i l ∧ p l = true) → ∃ j, j ∈ is ∧ (∃ l, P j l ∧ p l = true) ∧ R j i)).
Proof.
  intros Hs Hirr Htr Hfun HF. induction HF as [|i l is ls Hil HF IH]; cbn [splice_first].
  - exists []. split_and!; [constructor|constructor|]. intros i. rewrite elem_of_nil. tauto.
  - inversion Hs as [|? ? Hs' Hall]; subst. rewrite Forall_forall in Hall. destruct (p l) eqn:Hp.
    + exists is. split_and!; [done..|]. intros j. rewrite elem_of_cons. split.
      * intros Hj. split; [by right|]. intros _. exists i. split_and!; [left|by exists l|by apply Hall].
      * intros [[->|Hj] H]; [|done]. exfalso. destruct H as (k & Hk & _ & HR); [by exists l|].
        apply elem_of_cons in Hk as [->|Hk]; [by apply Hirr in HR|]. apply (Hirr i). apply (Htr i k i); [by apply Hall|done].
    + assert (¬ ∃ l', P i l' ∧ p l' = true) as Hno. { intros (l' & Hl' & Hpl). by rewrite (Hfun i l' l Hl' Hil), Hp in Hpl. }
      destruct (IH Hs') as (is' & H1 & H2 & H3). exists (i :: is'). split_and!.
      * constructor; [done|]. rewrite Forall_forall. intros j Hj. apply Hall. by apply H3 in Hj as [? _].
      * by constructor.
      * intros j. rewrite !elem_of_cons, H3. split.
        -- intros [->|[Hj H]]; [split; [by left|done]|]. split; [by right|]. intros HQ. destruct (H HQ) as (k & Hk & HQk & HR). exists k. split_and!; [by right|done|done].
        -- intros [[->|Hj] H]; [by left|]. right. split; [done|]. intros HQ. destruct (H HQ) as (k & Hk & HQk & HR).
           apply elem_of_cons in Hk as [->|Hk]; [done|]. by exists k.
Qed.

Lemma listeners_spec h : codes_distinct h → ∃ is, in_order h is ∧ Forall2 (registered h) is (as_listeners (arun h)).
Proof.
  induction h as [|op h IH] using rev_ind; intros Hd.
  - exists []. split; [|constructor]. split; [|constructor]. intros i. rewrite elem_of_nil. unfold in_force. by cbn.
  - destruct IH as (is & (Hin & Hs) & HF); [by apply codes_distinct_snoc in Hd|].
    assert (∀ i, i ∈ is → i < length h) as Hlt. { intros i Hi. apply in_force_lt. by apply Hin. }
    unfold arun. rewrite foldl_app. cbn [foldl]. fold (arun h).
    assert (StronglySorted (λ i j, (key (h ++ [op]) i < key (h ++ [op]) j)%Z) is) as Hs'.
    { eapply StronglySorted_change; [|exact Hs]. cbv beta. intros x y Hx Hy. by rewrite !key_snoc by auto. }
    assert (Forall2 (registered (h ++ [op])) is (as_listeners (arun h))) as HF'.
    { clear Hs Hs' Hin. induction HF; constructor; [|apply IHHF; intros; apply Hlt; by right]. apply registered_snoc; [apply Hlt; by left|done]. }
    destruct op as [l|l|[l|]|args]; cbn [astep as_listeners].
    + exists (is ++ [length h]). split; [split|].
      * intros i. rewrite elem_of_app, elem_of_list_singleton, in_force_snoc, Hin. split.
        -- intros [Hi| ->]; [right; split_and!; [done..|]; done|]. left. split; [done|]. exists l. by left.
        -- intros [[-> _]|[Hi _]]; [by right|by left].
      * apply StronglySorted_snoc; [done|]. rewrite Forall_forall. intros i Hi. pose proof (key_bounds (h ++ [AOn l]) i).
        unfold key at 2. rewrite lookup_app_r, Nat.sub_diag by lia. cbn. specialize (Hlt i Hi). lia.
      * apply Forall2_app; [done|]. constructor; [|constructor]. exists (AOn l). rewrite lookup_app_r, Nat.sub_diag by lia. split; [done|by left].
    + exists (length h :: is). split; [split|].
      * intros i. rewrite elem_of_cons, in_force_snoc, Hin. split.
        -- intros [->|Hi]; [left; split; [done|]; exists l; by right|]. right. split_and!; [done..|]. done.
        -- intros [[-> _]|[Hi _]]; [by left|by right].
      * constructor; [done|]. rewrite Forall_forall. intros i Hi. pose proof (key_bounds (h ++ [APrepend l]) i).
        unfold key at 1. rewrite lookup_app_r, Nat.sub_diag by lia. cbn. specialize (Hlt i Hi). lia.
      * constructor; [|done]. exists (APrepend l). rewrite lookup_app_r, Nat.sub_diag by lia. split; [done|by right].
    + destruct (splice_sorted (λ i j, (key (h ++ [AOff (Some l)]) i < key (h ++ [AOff (Some l)]) j)%Z) (registered (h ++ [AOff (Some l)]))
                 (λ x, bool_decide (li_code x = li_code l)) is (as_listeners (arun h))) as (is' & H1 & H2 & H3);
        [done|intros; lia|intros; lia|intros; by eapply registered_unique|done|].
      exists is'. split; [split|done]; [|done].
      assert (∀ i, i ∈ is → (∃ l0, registered (h ++ [AOff (Some l)]) i l0 ∧ bool_decide (li_code l0 = li_code l) = true) ↔ registered h i l) as HQ.
      { intros i Hi. split.
        - intros (l0 & Hr & Hc). apply bool_decide_eq_true in Hc.
          assert (l0 = l) as ->. { apply Hd; [by exists i; left| |done]. exists (length h). right. by rewrite lookup_app_r, Nat.sub_diag by lia. }
          rewrite registered_snoc in Hr by auto. done.
        - intros Hr. exists l. split; [by apply registered_snoc; auto|]. by apply bool_decide_eq_true. }
      intros i. rewrite H3, in_force_snoc. split.
      * intros [Hi H]. right. split_and!; [by apply Hin|done|]. intros l' [= <-] Hr.
        destruct H as (j & Hj & HQj & HR); [by apply HQ|]. exists j. split_and!; [by apply Hin|by apply HQ|].
        by rewrite !key_snoc in HR by auto.
      * intros [[_ (l' & [Hr|Hr])]|[Hi [_ H]]]; [done..|]. split; [by apply Hin|]. intros HQi.
        apply HQ in HQi; [|by apply Hin]. destruct (H l eq_refl HQi) as (j & Hj & Hr & Hlt'). exists j. split_and!; [by apply Hin|apply HQ; [by apply Hin|done]|].
        rewrite !key_snoc by (apply in_force_lt; done). done.
    + exists []. split; [|constructor]. split; [|constructor]. intros i. rewrite elem_of_nil, in_force_snoc. split; [done|].
      intros [[_ (l & [H|H])]|[_ [H _]]]; done.
    + exists is. split; [split|done]; [|done]. intros i. rewrite in_force_snoc, Hin. split.
      * intros Hi. right. split_and!; done.
      * intros [[_ (l & [H|H])]|[H _]]; done.
Qed.
Lemma listeners_called h args : codes_distinct h →
  ∃ is ls, in_order h is ∧ Forall2 (registered h) is ls ∧ as_listeners (arun h) = ls ∧
           as_called (arun (h ++ [AEvent args])) = as_called (arun h) ++ ((λ l, (l, args)) <$> ls).
Proof.
  intros Hd. destruct (listeners_spec h Hd) as (is & Hin & HF). exists is, (as_listeners (arun h)). split_and!; [done..|].
  unfold arun. rewrite foldl_app. done.
Qed.
(** Nothing else calls a listener. *)
Lemma only_events_call h op : (∀ args, op ≠ AEvent args) → as_called (arun (h ++ [op])) = as_called (arun h).
Proof. intros H. unfold arun. rewrite foldl_app. destruct op as [| |[]|]; try done. by destruct (H args). Qed.
