(** Property C63: emissions of several goroutines to several connections. *)
From Verif Require Import Base Emissions EmissionsSpec EmissionsProofs.

(** ** C63 What several goroutines write to several connections
    Any number of goroutines, each performing any list of emissions, every schedule and every change of the transports.
    Each connection carries the blocks of distinct writes to it (the frames of one packet, in order, without anything in
    between), those of one goroutine in the order in which it performs them, and at the end a part of the block of the
    goroutine that holds the mutex. *)
Theorem C63_blocks : ∀ ps ls c, let s := e_run ps ls in ∃ ids part, NoDup ids ∧ ec_log (es_conn s c) = concat (block ps <$> ids) ++ part ∧
  (∀ t i, (t, i) ∈ ids → ∃ w, is_write ps t i w ∧ ew_conn w = c) ∧ (∀ t i w, returned s t i EWritten → is_write ps t i w → ew_conn w = c → (t, i) ∈ ids) ∧
  (∀ a b t i j, ids !! a = Some (t, i) → ids !! b = Some (t, j) → a < b → i < j) ∧
  (part = [] ∨ ∃ t i w, ec_lock (es_conn s c) = Some t ∧ is_write ps t i w ∧ ew_conn w = c ∧ (t, i) ∉ ids ∧ part `prefix_of` block ps (t, i)).
Proof. exact run_blocks. Qed.
Print Assumptions C63_blocks.
(** A broadcast that is not volatile has written its packet, once, to each of its connections when it returns; an
    emission to one socket too, if the connection stays open. *)
Theorem C63_delivered : ∀ ps ls t es k e c, let s := e_run ps ls in ps !! t = Some es → es !! k = Some e → c ∈ em_conns e → em_vol e = false →
  (em_via e = true → ∀ o w, inr (c, o, w) ∈ ls → o = true) → over ps s t k →
  ∃ i l1 l2, ec_log (es_conn s c) = l1 ++ ((λ f, (t, i, f)) <$> em_frames e) ++ l2 ∧ ∀ x, x ∈ l1 ++ l2 → x.1 ≠ (t, i).
Proof. exact run_delivered. Qed.
Print Assumptions C63_delivered.
(** The emissions of one goroutine arrive in the order of the calls, on every connection. *)
Theorem C63_program_order : ∀ ps ls c t k m, k < m → in_order ps (e_run ps ls) c t k t m.
Proof. exact run_program. Qed.
Print Assumptions C63_program_order.
(** Those of different goroutines too, if the second call is made when the first has returned. *)
Theorem C63_order : ∀ ps l1 l2 c t k u m, over ps (e_run ps l1) t k → ahead ps (e_run ps l1) u m → in_order ps (e_run ps (l1 ++ l2)) c t k u m.
Proof. exact run_order. Qed.
Print Assumptions C63_order.
(** Two goroutines broadcast to the same two clients, a binary and a text packet, and then each emits to one of them. *)
Definition to_all (fs : list string) (cs : list nat) : emission := Emission false false fs cs.
Definition to_one (v : bool) (fs : list string) (c : nat) : emission := Emission true v fs [c].
Definition em_two : list (list emission) := [[to_all ["51-a"; "bin"] [0; 1]; to_one false ["2b"] 1]; [to_all ["2c"] [0; 1]; to_one true ["2d"] 0]].
Definition turns (n t : nat) : list elabel := replicate n (inl t).
Definition on (s : est) (c : nat) : list string := (ec_log (es_conn s c)).*2.
Definition em_sched : list elabel := turns 4 0 ++ turns 5 1 ++ turns 16 0 ++ turns 12 1 ++ [inr (0, true, false)] ++ turns 4 1 ++ turns 20 0.
Example C63_example : let s := e_run em_two em_sched in on s 0 = ["51-a"; "bin"; "2c"] ∧ on s 1 = ["51-a"; "bin"; "2b"; "2c"] ∧
  (et_res <$> es_thr s) = [[EWritten; EWritten; EWritten]; [EWritten; EWritten; EDiscarded]].
Proof. cbv zeta. split_and!; vm_compute; reflexivity. Qed.
(** The hypotheses of [C63_order]: the broadcast of goroutine 0 has returned before goroutine 1 begins its second call. *)
Example C63_order_example : over em_two (e_run em_two (take 25 em_sched)) 0 0 ∧ ahead em_two (e_run em_two (take 25 em_sched)) 1 1.
Proof.
  split.
  - intros i w (es & [= <-] & Hw) Hk. exists EWritten. destruct i as [|[|[|i]]]; [eexists; split; vm_compute; reflexivity..| |].
    + vm_compute in Hw. injection Hw as <-. discriminate Hk.
    + discriminate Hw.
  - intros i w (es & [= <-] & Hw) Hk (x & Hx & Hb). vm_compute in Hx. injection Hx as <-.
    destruct i as [|[|[|i]]]; vm_compute in Hw; try discriminate Hw; injection Hw as <-; try discriminate Hk. destruct Hb as [Hb|[Hb _]]; cbn in Hb; [lia|discriminate Hb].
Qed.
(** Nothing more holds of concurrent calls.  Two clients can see two broadcasts in opposite orders, though both broadcasts visit the
    clients in the same order. *)
Theorem C63_opposite_refuted : ∃ ps ls, let s := e_run ps ls in ps = [[to_all ["2a"] [0; 1]]; [to_all ["2b"] [0; 1]]] ∧ all_finished s ∧
  on s 0 = ["2a"; "2b"] ∧ on s 1 = ["2b"; "2a"].
Proof.
  exists [[to_all ["2a"] [0; 1]]; [to_all ["2b"] [0; 1]]], (turns 6 0 ++ turns 12 1 ++ turns 6 0). cbv zeta. split; [done|]. split; [|split; vm_compute; reflexivity].
  intros t Ht. destruct t as [|[|t]]; [eexists; split; vm_compute; reflexivity..|]. vm_compute in Ht. lia.
Qed.
Print Assumptions C63_opposite_refuted.
(** What the server sends in reaction to a client that received the broadcast (its goroutine has not begun when the packet is on the
    connection of that client) can reach another client before the broadcast. *)
Theorem C63_reaction_refuted : ∃ ps l1 l2, ps = [[to_all ["2a"] [0; 1]]; [to_one false ["2b"] 1]] ∧ on (e_run ps l1) 0 = ["2a"] ∧
  ahead ps (e_run ps l1) 1 0 ∧ on (e_run ps (l1 ++ l2)) 1 = ["2b"; "2a"] ∧ all_finished (e_run ps (l1 ++ l2)).
Proof.
  exists [[to_all ["2a"] [0; 1]]; [to_one false ["2b"] 1]], (turns 6 0), (turns 6 1 ++ turns 6 0). split; [done|]. split; [vm_compute; reflexivity|]. split; [|split; [vm_compute; reflexivity|]].
  - intros i w (es & [= <-] & Hw) Hk (x & Hx & Hb). vm_compute in Hx. injection Hx as <-. destruct Hb as [Hb|[_ Hb]]; [cbn in Hb; lia|done].
  - intros t Ht. destruct t as [|[|t]]; [eexists; split; vm_compute; reflexivity..|]. vm_compute in Ht. lia.
Qed.
Print Assumptions C63_reaction_refuted.

(** ** The result of each write *)
Theorem C63_results : ∀ ps ls t i r, let s := e_run ps ls in returned s t i r → ∃ w, is_write ps t i w ∧
  match r with
  | EWritten => (em_vol (ew_em w) = true → at_moment ps ls t i ECheck (λ y, ec_writable y = true)) ∧
      ∃ l1 l2, ec_log (es_conn s (ew_conn w)) = l1 ++ block ps (t, i) ++ l2 ∧ ∀ x, x ∈ l1 ++ l2 → x.1 ≠ (t, i)
  | EDiscarded => (em_vol (ew_em w) = true ∧ at_moment ps ls t i ECheck (λ y, ec_writable y = false)) ∧ ∀ c x, x ∈ ec_log (es_conn s c) → x.1 ≠ (t, i)
  | EIgnored => (em_via (ew_em w) = true ∧ at_moment ps ls t i EEnter (λ y, ec_open y = false)) ∧ ∀ c x, x ∈ ec_log (es_conn s c) → x.1 ≠ (t, i)
  end.
Proof. exact run_results. Qed.
Print Assumptions C63_results.

(** ** No deadlock
    While some goroutine is not finished, some goroutine can make a step; a goroutine holds at most one mutex. *)
Theorem C63_progress : ∀ ps ls t, let s := e_run ps ls in t < length (es_thr s) → ¬ finished s t → ∃ u, can_step s u.
Proof. exact run_progress. Qed.
Print Assumptions C63_progress.
(** Whatever happened so far, all goroutines can be run to their end, whatever the transports do. *)
Theorem C63_completes : ∀ ps ls, ∃ ls', (∀ l, l ∈ ls' → ∃ t, l = inl t) ∧ all_finished (e_run ps (ls ++ ls')).
Proof. exact run_completes. Qed.
Print Assumptions C63_completes.
(** No schedule can make more steps than the programs have. *)
Theorem C63_bounded : ∀ ps ls, busy ps ls → steps ls ≤ work ps.
Proof. exact run_steps. Qed.
Print Assumptions C63_bounded.
(** Goroutine 1 waits for the mutex that goroutine 0 holds; 38 steps finish both programs. *)
Example C63_progress_example : let s := e_run em_two (turns 4 0 ++ turns 5 1) in ¬ can_step s 1 ∧ ¬ finished s 1 ∧ can_step s 0 ∧ work em_two = 38 ∧
  all_finished (e_run em_two (turns 20 0 ++ turns 18 1)).
Proof.
  cbv zeta. split_and!.
  - intros (_ & _ & H). apply H. eexists _, _. split; [vm_compute; reflexivity|]. split; [vm_compute; reflexivity|]. split; [reflexivity|]. vm_compute. discriminate.
  - intros (x & Hx & H). vm_compute in Hx. injection Hx as <-. discriminate H.
  - split; [vm_compute; lia|]. split.
    + intros (x & Hx & H). vm_compute in Hx. injection Hx as <-. discriminate H.
    + intros (x & w & Hx & _ & H & _). vm_compute in Hx. injection Hx as <-. discriminate H.
  - vm_compute. reflexivity.
  - intros t Ht. destruct t as [|[|t]]; [eexists; split; vm_compute; reflexivity..|]. vm_compute in Ht. lia.
Qed.
