(** Property C72: histories of the server, seen from the table of namespaces, are runs of the interleaving model in turns, and conversely.  See
    NspTurnSpec.v for the vocabulary. *)
From Verif Require Import Base GoTypes Rooms Adapter AdapterSpec Session System SystemSpec SystemExamples NspConc NspConcSpec NspTurnSpec NspTurnProofs NspTurnBack.

(** ** C72 Namespace calls in turn
    C60 is about goroutines that create, look up and remove namespaces in small steps, C34-C37 about a server that does so at once.  Whatever
    the server does (here any history at all), there are goroutines of the interleaving model that bring it, each going on until it rests while
    the others rest, to the same table, namespaces, children and announcements, with one goroutine per socket where the socket is, and one per
    call of Of. *)
Theorem C72_turns : ∀ (csr skip clean : bool) (h : list (sords * op)) (f : nat → bool),
  env_ok csr skip clean h → slashed h →
  ∃ ts n, unbegun ts ∧ rtc (turn clean) (ninit ts) n ∧ agree (asks h) f (run csr skip clean h) n.
Proof. exact c72_turns_l. Qed.
Print Assumptions C72_turns.

Ltac decide_env := first [apply env_dec; [apply hist_ok|] | apply polite_dec]; vm_compute; reflexivity.
(** [h_orphan]: a parent, two clients in "/d1", of which one is waiting for the middlewares when the other leaves; then Of("chat") and the
    admission of the one that waited, to a namespace no longer registered. *)
Definition h_turns : list op := h_orphan ++ [OOf "chat" None; OVerdict 1 None].
Definition t_turns : list nthread :=
  [ NThread "/" None None None PStart; NThread "/d1" (Some ("s0", true)) (Some 0) (Some 0) PStart;
    NThread "/d1" (Some ("s1", true)) (Some 0) (Some 0) PStart; NThread "/chat" None None None PStart ].
Definition n_turns : nstate := nrun true (ninit t_turns) (concat [replicate 4 0; replicate 8 1; [1]; [2; 2]; replicate 6 1; replicate 4 3; [2]]).
Example C72_example : env_ok false false true (hist h_turns) ∧ slashed (hist h_turns) ∧ unbegun t_turns ∧ at_rest n_turns ∧
  let s := run false false true (hist h_turns) in
  bool_decide (n_table n_turns = {["/" := 0; "/chat" := 2]}) = true ∧ bool_decide (c_reg s.1 = {["/" := 0; "/chat" := 2]}) = true ∧
  (nsp_view <$> c_nsps s.1 = [("/", None, ∅); ("/d1", Some 0, {["s1"]}); ("/chat", None, ∅)]) ∧
  (bool_decide (obj_view <$> n_objs n_turns = nsp_view <$> c_nsps s.1) = true) ∧
  announced s.2 = [1; 2] ∧ n_events n_turns = [1; 2] ∧ bool_decide (kids s.1 0 = ∅) = true ∧ bool_decide (children n_turns 0 = ∅) = true ∧
  asks (hist h_turns) = ["/"; "/chat"] ∧ nt_pc <$> n_threads n_turns = [PGot 0; PEnd; PIn 1; PGot 2] ∧
  ((λ a, (sk_id a, sk_nsp a, sk_connected a, sk_can_join a)) <$> c_socks s.1 = [("s0", 1, false, false); ("s1", 1, true, true)]).
Proof.
  split; [decide_env|]. split.
  { intros e (o & -> & Ho)%elem_of_list_fmap. unfold h_turns, h_orphan in Ho. repeat (apply elem_of_cons in Ho as [->|Ho]; [vm_compute; done|]). by apply elem_of_nil in Ho. }
  split; [repeat constructor|]. split; [vm_compute; repeat constructor|]. cbv zeta. split_and!; try (vm_compute; reflexivity); by_eval.
Qed.

(** Conversely: goroutines that make "/", then create, look up, enter and leave namespaces in turn, the parents being [ms], always leave what some
    history of the server leaves. *)
Theorem C72_histories : ∀ (csr skip clean : bool) (ms : list matcher) (ts : list nthread) (n : nstate),
  unbegun ts → Forall (plausible ms) ts → rtc (turn clean) (served clean ts) n →
  ∃ h f, env_ok csr skip clean h ∧ slashed h ∧ agree (asks h) f (run csr skip clean h) n ∧ pa_match <$> c_parents (run csr skip clean h).1 = ms.
Proof. exact c72_histories_l. Qed.
Print Assumptions C72_histories.

(** Two parents: one for "/d1", one that is a function.  The first client creates "/d1", the second "/x" for which the function answers yes; a third
    is told no; Of("/d1") finds it; the first client leaves and "/d1" goes; Of("/d1") makes it again. *)
Definition ms_back : list matcher := [MRegex (λ m, bool_decide (m = "/d1")); MFun].
Definition t_back : list nthread :=
  [ NThread "/d1" (Some ("s0", true)) (Some 0) (Some 0) PStart; NThread "/x" (Some ("s1", false)) (Some 1) None PStart;
    NThread "/y" (Some ("s2", true)) None None PStart; NThread "/d1" None (Some 0) (Some 0) PStart; NThread "/d1" None (Some 1) (Some 0) PStart ].
Definition goes (i m : nat) (n : nstate) : nstate := nrun true n (replicate m i).
Definition n_back : nstate := goes 5 5 (goes 1 6 (goes 4 1 (goes 3 2 (goes 2 8 (goes 1 9 (served true t_back)))))).
Example C72_histories_example : unbegun t_back ∧ Forall (plausible ms_back) t_back ∧ rtc (turn true) (served true t_back) n_back ∧
  bool_decide (n_table n_back = {["/" := 0; "/x" := 2; "/d1" := 3]}) = true ∧
  nt_pc <$> n_threads n_back = [PGot 0; PEnd; PGot 2; PDenied; PGot 1; PGot 3] ∧ n_events n_back = [1; 2; 3] ∧
  bool_decide (children n_back 0 = {[3]}) = true ∧ bool_decide (children n_back 1 = {[2]}) = true.
Proof.
  split; [repeat constructor|]. split; [|split].
  - assert (∀ m p, m ≠ "/d1" → ¬ matching ms_back m p) as Hno.
    { intros m [|[|p]] Hm (r & E & Hr); [|done|done]. injection E as <-. by apply bool_decide_eq_true in Hr. }
    assert (matching ms_back "/d1" 0) as Hd by (by eexists).
    repeat (apply Forall_cons; split); try done; (split; [done|]); cbn; split; eauto; intros p; by apply Hno.
  - assert (∀ i m n, forallb (λ t, resting (nt_pc t)) (n_threads n) = true → forallb (λ t, resting (nt_pc t)) (n_threads (goes i m n)) = true → turn true n (goes i m n)) as H.
    { intros i m n H1 H2. split; [|split]; [apply Forall_forall..|exists i, m; reflexivity]; intros t Ht.
      - by apply (proj1 (forallb_forall _ _) H1), elem_of_list_In.
      - by apply (proj1 (forallb_forall _ _) H2), elem_of_list_In. }
    unfold n_back. do 6 (eapply rtc_r; [|apply H; vm_compute; reflexivity]). apply rtc_refl.
  - split_and!; vm_compute; reflexivity.
Qed.
