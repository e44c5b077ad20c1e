(** Property C76: catch-all listeners under concurrency. *)
From Verif Require Import Base GoTypes AnyListeners AnyListenersSpec AnyConc AnyConcSpec AnyConcProofs.

(** ** C76 Catch-all listeners under concurrency
    Any number of goroutines register and remove catch-all listeners while any number of events are received; every schedule.  An event calls the
    registrations in force when it began, in the implied order, each once and with its arguments, whatever happens meanwhile. *)
Theorem C76_exact : ∀ ls n pre args post, begins ls n pre args post → codes_distinct (regs pre) →
  ∃ is ks, in_order (regs pre) is ∧ Forall2 (registered (regs pre)) is ks ∧ called n (nrun ls) = take (turns n post) ((λ l, (l, args)) <$> ks).
Proof. exact calls_in_order. Qed.
Print Assumptions C76_exact.
(** The steps of a schedule that the next statements are about: an event during which two registrations change. *)
Definition any_ls : list nlabel :=
  let a := Listener 1 0 in let b := Listener 2 0 in
  [NReg (AOn a); NReg (APrepend b); NBegin [VNum 7]; NCall 0; NReg (AOff (Some a)); NReg (AOn (Listener 3 0)); NBegin [VNum 8]; NCall 1; NCall 0; NCall 0; NCall 1].
Example C76_example : begins any_ls 0 (take 2 any_ls) [VNum 7] (skipn 3 any_ls) ∧ begins any_ls 1 (take 6 any_ls) [VNum 8] (skipn 7 any_ls) ∧
  called 0 (nrun any_ls) = [(Listener 2 0, [VNum 7]); (Listener 1 0, [VNum 7])] ∧ called 1 (nrun any_ls) = [(Listener 2 0, [VNum 8]); (Listener 3 0, [VNum 8])] ∧
  codes_distinct (regs (take 6 any_ls)).
Proof.
  split; [by split|]. split; [by split|]. split; [vm_compute; reflexivity|]. split; [vm_compute; reflexivity|].
  assert (∀ l i, registered (regs (take 6 any_ls)) i l ∨ regs (take 6 any_ls) !! i = Some (AOff (Some l)) → l = Listener 1 0 ∨ l = Listener 2 0 ∨ l = Listener 3 0) as H.
  { intros l i [(op & Hop & [->| ->])|Hop]; do 4 (destruct i as [|i]; [by (inversion Hop; subst; auto)|]); by destruct i. }
  intros l l' (i & Hi) (j & Hj) Hc. apply H in Hi, Hj. destruct Hi as [->|[->| ->]], Hj as [->|[->| ->]]; done.
Qed.
(** A listener added before an event began, and nothing removed since, is called by the event once it is through. *)
Theorem C76_called : ∀ ls n pre args post l a o b, begins ls n pre args post → length (as_listeners (arun (regs pre))) ≤ turns n post →
  regs pre = a ++ o :: b → adds l o → Forall (λ o, ¬ removes o) b → (l, args) ∈ called n (nrun ls).
Proof. exact is_called. Qed.
Print Assumptions C76_called.
Example C76_example_called : regs (take 6 any_ls) = (take 3 (regs (take 6 any_ls))) ++ AOn (Listener 3 0) :: [] ∧
  length (as_listeners (arun (regs (take 6 any_ls)))) ≤ turns 1 (skipn 7 any_ls).
Proof. split; [done|]. by_eval. Qed.
(** Whoever is called was added before the event began, and not all listeners were removed between. *)
Theorem C76_source : ∀ ls n pre args post l args', begins ls n pre args post → (l, args') ∈ called n (nrun ls) →
  args' = args ∧ ∃ a o b, regs pre = a ++ o :: b ∧ adds l o ∧ AOff None ∉ b.
Proof. exact was_added. Qed.
Print Assumptions C76_source.
(** Nobody is called for an event that did not begin. *)
Theorem C76_silent : ∀ ls n, (∀ pre args post, ¬ begins ls n pre args post) → called n (nrun ls) = [].
Proof. exact no_other. Qed.
Print Assumptions C76_silent.
(** A listener may be called after OffAny that removed it has returned; and it may see two events in the other order. *)
Theorem C76_removed_refuted : ∃ l ls1 ls2, l ∉ ns_list (nrun ls1) ∧ l ∉ ns_list (nrun (ls1 ++ ls2)) ∧ regs ls2 = [] ∧
  called 0 (nrun ls1) = [] ∧ called 0 (nrun (ls1 ++ ls2)) = [(l, [VNum 7])].
Proof. exists (Listener 1 0), [NReg (AOn (Listener 1 0)); NBegin [VNum 7]; NReg (AOff (Some (Listener 1 0)))], [NCall 0]. split; [by_eval|]. split; [by_eval|]. split; [done|]. split; vm_compute; reflexivity. Qed.
Print Assumptions C76_removed_refuted.
Theorem C76_order_refuted : ∃ l ls, begins ls 0 (take 1 ls) [VNum 1] (skipn 2 ls) ∧ begins ls 1 (take 2 ls) [VNum 2] (skipn 3 ls) ∧
  ns_log (nrun ls) = [(1, (l, [VNum 2])); (0, (l, [VNum 1]))].
Proof. exists (Listener 1 0), [NReg (AOn (Listener 1 0)); NBegin [VNum 1]; NBegin [VNum 2]; NCall 1; NCall 0]. split; [by split|]. split; [by split|]. vm_compute. reflexivity. Qed.
Print Assumptions C76_order_refuted.
(** Operations made in turn, the calls for an event before the next operation, call whom the operations of C46 call. *)
Theorem C76_turns : ∀ h ls, in_turn h ls → (ns_log (nrun ls)).*2 = as_called (arun h).
Proof. exact turn_called. Qed.
Print Assumptions C76_turns.
Example C76_example_turns : let a := Listener 1 0 in
  in_turn [AOn a; AEvent [VNum 7]; AOff (Some a); AEvent [VNum 8]] [NReg (AOn a); NBegin [VNum 7]; NCall 0; NReg (AOff (Some a)); NBegin [VNum 8]] ∧
  as_called (arun [AOn a; AEvent [VNum 7]; AOff (Some a); AEvent [VNum 8]]) = [(a, [VNum 7])].
Proof.
  cbn zeta. split; [|vm_compute; reflexivity]. apply (it_event [AOn (Listener 1 0); AEvent [VNum 7]; AOff (Some (Listener 1 0))] [NReg (AOn (Listener 1 0)); NBegin [VNum 7]; NCall 0; NReg (AOff (Some (Listener 1 0)))] [VNum 8] 0); [|by_eval].
  apply (it_reg [AOn (Listener 1 0); AEvent [VNum 7]] [NReg (AOn (Listener 1 0)); NBegin [VNum 7]; NCall 0]); [|done].
  apply (it_event [AOn (Listener 1 0)] [NReg (AOn (Listener 1 0))] [VNum 7] 1); [|by_eval]. apply (it_reg [] []); [constructor|done].
Qed.
