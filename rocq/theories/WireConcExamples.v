(** Concrete conversations. *)
From Verif Require Import Base LifeConc LifeConcSpec WireConc WireConcSpec.

Definition arriving : lstate := LState true false true ∅ false false false.
Definition on_air : lstate := LState true true true {["a"; "r"]} true true true.
Definition calls n (i : nat) : list (nat + nat) := replicate n (inl i).
Definition threads n (j : nat) : list (nat + nat) := replicate n (inr j).

(** [undisturbed] and [polite], by evaluation. *)
Definition wx_known (c : wstate) : bool := existsb (λ x, match x with PConnect => true | _ => false end) (w_wire c).
Definition wx_quiet (c : wstate) (l : nat + nat) : bool :=
  match l with
  | inl i => match lf_calls (w_life c) !! i with Some (LcDisconnect, QStart) => false | _ => true end
  | inr j => match w_threads c !! j with Some (_, VLook) | Some (WEmit, VStart) => false | _ => true end
  end.
Definition wx_silent (c : wstate) (l : nat + nat) : bool :=
  match l with inl _ => true | inr j => match w_threads c !! j with Some (WIn _, _) => false | _ => true end end.
Fixpoint wx_check (f : wstate → (nat + nat) → bool) (c : wstate) (sched : list (nat + nat)) : bool :=
  match sched with [] => true | l :: sched => (wx_known c || f c l) && wx_check f (w_step c l) sched end.
Lemma wx_known_spec c : wx_known c = true → PConnect ∈ w_wire c.
Proof. unfold wx_known. intros (x & Hx & E)%existsb_exists. destruct x; try done. by apply elem_of_list_In. Qed.
Lemma wx_check_spec f c l1 l l2 : wx_check f c (l1 ++ l :: l2) = true → PConnect ∈ w_wire (foldl w_step c l1) ∨ f (foldl w_step c l1) l = true.
Proof.
  revert c. induction l1 as [|x l1 IH]; intros c; cbn; intros [H1 H2]%andb_true_iff; [|by apply IH].
  apply orb_true_iff in H1 as [H1|H1]; [left; by apply wx_known_spec|by right].
Qed.
Lemma wx_undisturbed s ts ws sched : wx_check wx_quiet (w_run s ts ws []) sched = true → undisturbed s ts ws sched.
Proof.
  intros H l1 l l2 -> Hn. apply wx_check_spec in H as [H|H]; [by destruct Hn|]. intros Hd. revert H. fold (w_run s ts ws l1).
  change (foldl w_step (w_run s ts ws []) l1) with (w_run s ts ws l1). destruct l as [i|j]; cbn in *.
  - by rewrite Hd.
  - destruct Hd as [[t ->]| ->]; [by destruct t|done].
Qed.
Lemma wx_polite s ts ws sched : wx_check wx_silent (w_run s ts ws []) sched = true → polite s ts ws sched.
Proof.
  intros H l1 j l2 b p -> Hj. apply wx_check_spec in H as [H|H]; [done|]. revert H.
  change (foldl w_step (w_run s ts ws []) l1) with (w_run s ts ws l1). cbn. by rewrite Hj.
Qed.
