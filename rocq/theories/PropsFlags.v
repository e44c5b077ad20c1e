(** Property C65: modifiers of a socket used by several goroutines. *)
From Verif Require Import Base FlagsConc FlagsConcSpec FlagsConcProofs FlagsTurn.

(** ** C65 Modifiers under concurrency
    Any number of goroutines calling modifiers, Emit and the methods that make operators on one socket; every schedule.  A round ends
    when an emission takes the modifiers.  Each field of what an emission carries is that of the last modifier that was written, by any
    goroutine, among those that began in the round in which the emission read the pointer; with a callback, its timeout too. *)
Theorem C65_exact : ∀ ps ls i t k tm c, let tr := (f_run ps ls).2 in tr !! i = Some (t, k, AOut tm c) →
  ∃ call r, call_of ps t k = Some call ∧ (∀ f v, call ≠ FMod f v) ∧ loads (take i tr) t k r ∧
    (∀ f, ∃ j, j < i ∧ tr !! j = Some (t, k, ARead f) ∧ loads (take j tr) t k r ∧ valued (take j tr) r f (field_of c f)) ∧
    (call = FEmit true → ∃ j r', j < i ∧ tr !! j = Some (t, k, ATimeRead) ∧ time_loads (take j tr) t k r' ∧ valued (take j tr) r' FTimeout tm) ∧
    (call ≠ FEmit true → tm = None).
Proof. exact run_exact. Qed.
Print Assumptions C65_exact.
(** No modifier is invented: somebody called it, in the round of the emission. *)
Theorem C65_source : ∀ ps ls i t k tm c f v, let tr := (f_run ps ls).2 in tr !! i = Some (t, k, AOut tm c) → field_of c f = Some v →
  ∃ u m j r, j < i ∧ tr !! j = Some (u, m, AWrite f v) ∧ call_of ps u m = Some (FMod f v) ∧ loads tr u m r ∧ loads tr t k r.
Proof. exact run_source. Qed.
Print Assumptions C65_source.
Theorem C65_source_timeout : ∀ ps ls i t k tm c v, let tr := (f_run ps ls).2 in tr !! i = Some (t, k, AOut tm c) → tm = Some v →
  ∃ u m j r, j < i ∧ tr !! j = Some (u, m, AWrite FTimeout v) ∧ call_of ps u m = Some (FMod FTimeout v) ∧ loads tr u m r ∧ time_loads tr t k r.
Proof. exact run_source_timeout. Qed.
Print Assumptions C65_source_timeout.
(** One call of a modifier is carried by two emissions only if these overlap. *)
Theorem C65_overlap : ∀ ps ls i1 t1 k1 tm1 c1 i2 t2 k2 tm2 c2 f v, let tr := (f_run ps ls).2 in
  tr !! i1 = Some (t1, k1, AOut tm1 c1) → tr !! i2 = Some (t2, k2, AOut tm2 c2) → field_of c1 f = Some v → field_of c2 f = Some v →
  (∀ u m u' m', call_of ps u m = Some (FMod f v) → call_of ps u' m' = Some (FMod f v) → (u, m) = (u', m')) →
  ∃ l1 l2, tr !! l1 = Some (t1, k1, ALoad) ∧ tr !! l2 = Some (t2, k2, ALoad) ∧ l1 < i2 ∧ l2 < i1.
Proof. exact run_overlap. Qed.
Print Assumptions C65_overlap.
(** A goroutine's emission carries the modifier that it called before, if between their loads no emission took the modifiers and nobody
    else wrote the field. *)
Theorem C65_kept : ∀ ps ls t k f v k' a b i tm c, let tr := (f_run ps ls).2 in
  tr !! a = Some (t, k, ALoad) → call_of ps t k = Some (FMod f v) → tr !! b = Some (t, k', ALoad) → tr !! i = Some (t, k', AOut tm c) → k < k' → a < b →
  (∀ j e, a ≤ j < b → tr !! j = Some e → is_out e = false) → (∀ j u m v', a < j < i → tr !! j = Some (u, m, AWrite f v') → (u, m) = (t, k)) → field_of c f = Some v.
Proof. exact run_kept. Qed.
Print Assumptions C65_kept.
Theorem C65_kept_timeout : ∀ ps ls t k v k' a i tm c, let tr := (f_run ps ls).2 in
  tr !! a = Some (t, k, ALoad) → call_of ps t k = Some (FMod FTimeout v) → call_of ps t k' = Some (FEmit true) → tr !! i = Some (t, k', AOut tm c) → k < k' →
  (∀ j e, a ≤ j < i → tr !! j = Some e → is_out e = false) → (∀ j u m v', a < j < i → tr !! j = Some (u, m, AWrite FTimeout v') → (u, m) = (t, k)) → tm = Some v.
Proof. exact run_kept_timeout. Qed.
Print Assumptions C65_kept_timeout.
(** One goroutine: each emission carries the modifiers called since the emission before. *)
Theorem C65_sequential : ∀ cs ls, let st := f_run [cs] ls in all_made st.1 → emissions st.2 = expected cs.
Proof. exact run_sequential. Qed.
Print Assumptions C65_sequential.
(** Several goroutines whose calls do not overlap: each emission carries the modifiers called, by whichever goroutine, since the emission before. *)
Theorem C65_turns : ∀ (ps : list (list fcall)) (us : list nat), taken (f_run ps (in_turn ps us)).2 = carries fobj0 (merged ps us).
Proof. exact run_turns. Qed.
Print Assumptions C65_turns.
Example C65_turns_example : let ps := [[FMod FVolatile 1; FEmit true; FEmit false]; [FMod FTimeout 4; FOper]] in
  merged ps [0; 1; 0; 1; 0] = [(0, FMod FVolatile 1); (1, FMod FTimeout 4); (0, FEmit true); (1, FOper); (0, FEmit false)] ∧
  taken (f_run ps (in_turn ps [0; 1; 0; 1; 0])).2 = [(0, Some 4, [None; Some 1; Some 4]); (1, None, [None; None; None]); (0, None, [None; None; None])].
Proof. split; vm_compute; reflexivity. Qed.

Definition goes (n t : nat) : list nat := replicate n t.
Definition one_caller : list fcall := [FMod FVolatile 1; FMod FTimeout 5; FEmit true; FMod FTimeout 7; FMod FTimeout 9; FOper; FEmit true].
Example C65_sequential_example : all_made (f_run [one_caller] (goes 40 0)).1 ∧
  expected one_caller = [(2, Some 5, [None; Some 1; Some 5]); (5, None, [None; None; Some 9]); (6, None, [None; None; None])].
Proof. split; [|vm_compute; reflexivity]. intros [|t] x Hx; vm_compute in Hx; [injection Hx as <-; reflexivity|discriminate Hx]. Qed.
(** Two goroutines; the first calls a modifier and emits, the second emits. *)
Definition two_callers : list (list fcall) := [[FMod FVolatile 1; FEmit false]; [FEmit false]].
Definition carried (tr : list fevent) : list (nat * option nat) := omap (λ e : fevent, match e with (t, _, AOut _ c) => Some (t, field_of c FVolatile) | _ => None end) tr.
Example C65_example : carried (f_run two_callers (goes 7 0 ++ goes 5 1)).2 = [(0, Some 1); (1, None)] ∧
  carried (f_run two_callers (goes 1 1 ++ goes 2 0 ++ goes 5 0 ++ goes 4 1)).2 = [(0, Some 1); (1, Some 1)].
Proof. split; vm_compute; reflexivity. Qed.
(** The hypotheses of [C65_kept]: the second goroutine begins its emission before the modifier and ends it after the emission of the first. *)
Example C65_kept_example : let tr := (f_run two_callers (goes 1 1 ++ goes 2 0 ++ goes 5 0 ++ goes 4 1)).2 in
  tr !! 1 = Some (0, 0, ALoad) ∧ tr !! 3 = Some (0, 1, ALoad) ∧ tr !! 7 = Some (0, 1, AOut None [None; Some 1; None]) ∧
  (∀ j e, 1 ≤ j < 3 → tr !! j = Some e → is_out e = false) ∧ (∀ j u m v', 1 < j < 7 → tr !! j = Some (u, m, AWrite FVolatile v') → (u, m) = (0, 0)).
Proof.
  cbv zeta. split_and!; [vm_compute; reflexivity..| |].
  - intros j e Hj He. assert (j = 1 ∨ j = 2) as [-> | ->] by lia; vm_compute in He; injection He as <-; reflexivity.
  - intros j u m v' Hj He. assert (j = 2 ∨ j = 3 ∨ j = 4 ∨ j = 5 ∨ j = 6) as [->|[->|[->|[-> | ->]]]] by lia; vm_compute in He; try discriminate He. injection He as <- <- <-. reflexivity.
Qed.
(** The modifier of one goroutine goes to the emission of another. *)
Theorem C65_stolen_refuted : ∃ ls, let st := f_run two_callers ls in all_made st.1 ∧ carried st.2 = [(1, Some 1); (0, None)].
Proof.
  exists (goes 2 0 ++ goes 5 1 ++ goes 5 0). cbv zeta. split; [|vm_compute; reflexivity]. intros [|[|t]] x Hx; vm_compute in Hx; [injection Hx as <-; reflexivity..|discriminate Hx].
Qed.
Print Assumptions C65_stolen_refuted.
(** Both emissions carry it. *)
Theorem C65_doubled_refuted : ∃ ls, let st := f_run two_callers ls in all_made st.1 ∧ carried st.2 = [(1, Some 1); (0, Some 1)].
Proof.
  exists (goes 2 0 ++ goes 1 1 ++ goes 1 0 ++ goes 4 1 ++ goes 4 0). cbv zeta. split; [|vm_compute; reflexivity]. intros [|[|t]] x Hx; vm_compute in Hx; [injection Hx as <-; reflexivity..|discriminate Hx].
Qed.
Print Assumptions C65_doubled_refuted.
(** No emission carries it: it is written into a structure that was replaced. *)
Theorem C65_lost_refuted : ∃ ls, let st := f_run two_callers ls in all_made st.1 ∧ carried st.2 = [(1, None); (0, None)].
Proof.
  exists (goes 1 0 ++ goes 5 1 ++ goes 6 0). cbv zeta. split; [|vm_compute; reflexivity]. intros [|[|t]] x Hx; vm_compute in Hx; [injection Hx as <-; reflexivity..|discriminate Hx].
Qed.
Print Assumptions C65_lost_refuted.
(** The timeout of one goroutine goes to the callback of another, and its own callback has none: it may never be called. *)
Definition two_timeouts : list (list fcall) := [[FMod FTimeout 5; FEmit true]; [FEmit true]].
Theorem C65_timeout_refuted : ∃ ls, let st := f_run two_timeouts ls in all_made st.1 ∧
  omap (λ e : fevent, match e with (t, _, AOut tm _) => Some (t, tm) | _ => None end) st.2 = [(1, Some 5); (0, None)].
Proof.
  exists (goes 2 0 ++ goes 7 1 ++ goes 7 0). cbv zeta. split; [|vm_compute; reflexivity]. intros [|[|t]] x Hx; vm_compute in Hx; [injection Hx as <-; reflexivity..|discriminate Hx].
Qed.
Print Assumptions C65_timeout_refuted.
