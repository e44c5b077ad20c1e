(** Property C60: the table of namespaces when calls of Of and clients that connect and leave are interleaved (socket/server.go:203-229,
    569-612, socket/client.go:93-130, socket/parent-namespace.go:77-103, socket/namespace.go:267-381).  [unbegun]: goroutines
    that have not begun, on a server without namespaces; [cl]: CleanupEmptyChildNamespaces. *)
From Verif Require Import Base NspConc NspConcSpec NspConcProofs NspConcExamples.

(** ** What holds whatever happens meanwhile
    Who is given a namespace for a name (by Of, or as the one of the connection) is given one with that name, which was registered
    under the name at a moment next to a step of the call. *)
Theorem C60_given : ∀ cl ts sched i t o, unbegun ts → n_threads (nrun cl (ninit ts) sched) !! i = Some t → given (nt_pc t) = Some o →
  (∃ x, n_objs (nrun cl (ninit ts) sched) !! o = Some x ∧ no_name x = nt_name t) ∧
  beside cl ts sched i (λ tbl, tbl !! nt_name t = Some o).
Proof. exact given_registered_proof. Qed.
Print Assumptions C60_given.
Example C60_given_example : let s := nrun false (ninit [nx_client "a"; nx_client "b"]) nx_split in
  (nt_pc <$> n_threads s) = [PIn 0; PIn 1] ∧ n_table s !! "/d" = Some 1 ∧ n_events s = [0; 1].
Proof. vm_compute. auto. Qed.
(** A client is told "Invalid namespace" only if no parent accepts the name, and the name was not registered at a moment of the call. *)
Theorem C60_denied : ∀ cl ts sched i t, unbegun ts → n_threads (nrun cl (ninit ts) sched) !! i = Some t → nt_pc t = PDenied →
  nt_fn t = None ∧ is_Some (nt_client t) ∧ beside cl ts sched i (λ tbl, tbl !! nt_name t = None).
Proof. exact denied_unregistered_proof. Qed.
Print Assumptions C60_denied.
Example C60_denied_example : let ts := [nx_denied; NThread "/e" None None None PStart] in let s := nrun false (ninit ts) [0; 1; 1; 1; 1; 0] in
  unbegun ts ∧ (nt_pc <$> n_threads s) = [PDenied; PGot 0] ∧ n_table s !! "/e" = Some 0.
Proof. cbv zeta. split; [by apply nx_unbegun|]. vm_compute. auto. Qed.
(** The namespace registered under a name has that name; if a parent created it, it is one of the parent's children, so what is
    emitted through the parent reaches it. *)
Theorem C60_table : ∀ cl ts sched n o, unbegun ts → let s := nrun cl (ninit ts) sched in n_table s !! n = Some o →
  ∃ x, n_objs s !! o = Some x ∧ no_name x = n ∧ ∀ p, no_parent x = Some p → ∃ c, n_children s !! p = Some c ∧ o ∈ c.
Proof. exact table_sound_proof. Qed.
Print Assumptions C60_table.
Example C60_table_example : let s := nrun true (ninit [nx_client "a"; nx_client "b"; nx_client "c"]) nx_stale in
  n_table s !! "/d" = Some 1 ∧ (no_parent <$> n_objs s !! 1) = Some (Some 7) ∧ (elements <$> n_children s !! 7) = Some [0; 1].
Proof. vm_compute. auto. Qed.
(** The event new_namespace: at most once per namespace; a registered namespace was announced or is about to be (save the root);
    an announced one was registered. *)
Theorem C60_announced : ∀ cl ts sched, unbegun ts → let s := nrun cl (ninit ts) sched in
  NoDup (n_events s) ∧
  (∀ n o, n_table s !! n = Some o → o ∈ n_events s ∨ n = "/" ∨ ∃ i t k, n_threads s !! i = Some t ∧ nt_pc t = PEmit o k) ∧
  (∀ o, o ∈ n_events s → ∃ x, n_objs s !! o = Some x ∧ ∃ s1 s2, sched = s1 ++ s2 ∧ n_table (nrun cl (ninit ts) s1) !! no_name x = Some o).
Proof. exact announced_once_proof. Qed.
Print Assumptions C60_announced.
Example C60_announced_example : let ts := [NThread "/" None None None PStart; nx_of] in let s := nrun false (ninit ts) [0; 1; 0; 1; 0; 1; 0; 1] in
  unbegun ts ∧ n_table s !! "/" = Some 0 ∧ n_table s !! "/x" = Some 1 ∧ n_events s = [1].
Proof. cbv zeta. split; [by apply nx_unbegun|]. vm_compute. auto. Qed.
(** The sockets of a namespace are those of the clients connected to it, or about to leave it. *)
Theorem C60_sockets : ∀ cl ts sched, unbegun ts →
  (∀ i j t u a b id, ts !! i = Some t → ts !! j = Some u → nt_client t = Some (id, a) → nt_client u = Some (id, b) → i = j) →
  let s := nrun cl (ninit ts) sched in
  ∀ o x id, n_objs s !! o = Some x →
    (id ∈ no_socks x ↔ ∃ i t, n_threads s !! i = Some t ∧ nt_client t = Some (id, true) ∧ (nt_pc t = PIn o ∨ nt_pc t = PRemove o)).
Proof. exact sockets_exact_proof. Qed.
Print Assumptions C60_sockets.
Example C60_sockets_example : let s := nrun false (ninit [nx_client "a"; nx_client "b"]) (nx_create 0 ++ nx_enter 1 ++ [0; 0]) in
  (nt_pc <$> n_threads s) = [PLen 0; PIn 0] ∧ (elements ∘ no_socks <$> n_objs s) = [["b"]].
Proof. vm_compute. auto. Qed.
(** A namespace is created by a client, with the parent that accepts its name; or by a call of Of, with the parent whose regular
    expression matches the name if there is one.  Without the clean-up, Of on behalf of a client creates nothing: a client
    gets no namespace that neither a parent accepted nor the application created. *)
Theorem C60_parent : ∀ cl ts sched o x, unbegun ts → n_objs (nrun cl (ninit ts) sched) !! o = Some x →
  ∃ i t, ts !! i = Some t ∧ nt_name t = no_name x ∧
    ((is_Some (nt_client t) ∧ is_Some (nt_fn t) ∧ no_parent x = nt_fn t) ∨ (no_parent x = nt_rx t ∧ (cl = false → nt_client t = None))).
Proof. exact created_by_proof. Qed.
Print Assumptions C60_parent.
Example C60_parent_example : let ts := [nx_client "a"; nx_denied; NThread "/r" None None (Some 8) PStart] in
  let s := nrun false (ninit ts) [0; 1; 2; 0; 1; 2; 0; 2; 0; 2; 2; 0; 0; 0; 0] in
  unbegun ts ∧ ((λ x, (no_name x, no_parent x)) <$> n_objs s) = [("/r", Some 8); ("/d", Some 7)].
Proof. cbv zeta. split; [by apply nx_unbegun|]. vm_compute. auto. Qed.

(** ** One namespace per name, when creations of the name do not overlap
    If at no moment two goroutines are between finding the name unregistered and registering it, one namespace is created with the name
    and all are given that one (clean-up off). *)
Theorem C60_once : ∀ ts sched n, unbegun ts →
  (∀ s1 s2 i j t u, sched = s1 ++ s2 → n_threads (nrun false (ninit ts) s1) !! i = Some t → n_threads (nrun false (ninit ts) s1) !! j = Some u →
     nt_name t = n → nt_name u = n → creating (nt_pc t) = true → creating (nt_pc u) = true → i = j) →
  let s := nrun false (ninit ts) sched in
  (∀ o o' x x', n_objs s !! o = Some x → n_objs s !! o' = Some x' → no_name x = n → no_name x' = n → o = o') ∧
  (∀ i j t u o o', n_threads s !! i = Some t → n_threads s !! j = Some u → nt_name t = n → nt_name u = n →
     given (nt_pc t) = Some o → given (nt_pc u) = Some o' → o = o' ∧ n_table s !! n = Some o).
Proof. exact created_once_proof. Qed.
Print Assumptions C60_once.
(** Both clients ask the parents, one creates the namespace before the other looks again. *)
Example C60_once_example : let ts := [nx_client "a"; nx_client "b"] in let sched := [0; 1; 0; 1; 0; 0; 0; 0; 1; 0; 1; 1; 0; 0] in
  let s := nrun false (ninit ts) sched in
  unbegun ts ∧ (nt_pc <$> n_threads s) = [PIn 0; PIn 0] ∧
  forallb (λ k, Nat.leb (length (filter (λ t, creating (nt_pc t) = true) (n_threads (nrun false (ninit ts) (take k sched))))) 1) (seq 0 15) = true.
Proof. cbv zeta. split; [by apply nx_unbegun|]. vm_compute. auto. Qed.
(** A registered namespace that nobody else is creating stays the one of its name and is given to all who ask from then on: without the
    clean-up; and with it as long as a socket is connected or no parent created it, if it is the only one created with
    its name and is not being removed. *)
Theorem C60_stays : ∀ cl ts s1 s2 n o, unbegun ts → let a := nrun cl (ninit ts) s1 in
  n_table a !! n = Some o →
  (∀ i t, n_threads a !! i = Some t → nt_name t = n → creating (nt_pc t) = false ∧ ∀ o' k, nt_pc t = PEmit o' k → o' = o) →
  (cl = false ∨
    (∀ o' x, n_objs a !! o' = Some x → no_name x = n → o' = o) ∧
    (∀ i t o', n_threads a !! i = Some t → nt_name t = n → nt_pc t ≠ PClose o' ∧ nt_pc t ≠ PDelete o') ∧
    (∀ s2a s2b, s2 = s2a ++ s2b → ∃ x, n_objs (nrun cl a s2a) !! o = Some x ∧ (no_socks x ≠ ∅ ∨ no_parent x = None))) →
  let b := nrun cl a s2 in
  n_table b !! n = Some o ∧
  (∀ i t u o', n_threads a !! i = Some t → nt_name t = n → given (nt_pc t) = None →
     n_threads b !! i = Some u → given (nt_pc u) = Some o' → o' = o).
Proof. exact stays_proof. Qed.
Print Assumptions C60_stays.
(** With the clean-up: a client enters while another leaves, and the namespace stays. *)
Example C60_stays_example : let ts := [nx_client "a"; nx_client "b"] in let a := nrun true (ninit ts) (nx_create 0) in let s2 := [1; 1; 1; 0; 0; 0] in
  n_table a !! "/d" = Some 0 ∧ (nt_pc <$> n_threads a) = [PIn 0; PStart] ∧ length (n_objs a) = 1 ∧
  forallb (λ k, match n_objs (nrun true a (take k s2)) !! 0 with Some x => negb (bool_decide (no_socks x = ∅)) | None => false end) (seq 0 7) = true ∧
  (nt_pc <$> n_threads (nrun true a s2)) = [PEnd; PIn 0] ∧ n_table (nrun true a s2) !! "/d" = Some 0.
Proof. vm_compute. auto 10. Qed.

(** ** What does not hold
    Two overlapping calls of Of(name) return two namespaces. *)
Theorem C60_one_refuted : ¬ (∀ ts sched i j t u o o', unbegun ts → let s := nrun false (ninit ts) sched in
  n_threads s !! i = Some t → n_threads s !! j = Some u → nt_name t = nt_name u →
  nt_client t = None → nt_client u = None → given (nt_pc t) = Some o → given (nt_pc u) = Some o' → o = o').
Proof. exact one_per_name_witness. Qed.
Print Assumptions C60_one_refuted.
(** Two clients connected to one name are in different namespaces: what is emitted to one does not reach the other. *)
Theorem C60_together_refuted : ¬ (∀ ts sched i j t u o o', unbegun ts → let s := nrun false (ninit ts) sched in
  n_threads s !! i = Some t → n_threads s !! j = Some u → nt_name t = nt_name u → nt_pc t = PIn o → nt_pc u = PIn o' → o = o').
Proof. exact together_witness. Qed.
Print Assumptions C60_together_refuted.
(** With the clean-up, a connected client is in a namespace that is not registered, although only one was created with the name; *)
Theorem C60_registered_refuted : ¬ (∀ ts sched i t o, unbegun ts → let s := nrun true (ninit ts) sched in
  (∀ o' x, n_objs s !! o' = Some x → no_name x = nt_name t → o' = o) →
  n_threads s !! i = Some t → nt_pc t = PIn o → n_table s !! nt_name t = Some o).
Proof. exact in_registered_witness. Qed.
Print Assumptions C60_registered_refuted.
(** and whose adapter is closed. *)
Theorem C60_open_refuted : ¬ (∀ ts sched i t o x, unbegun ts → let s := nrun true (ninit ts) sched in
  n_threads s !! i = Some t → nt_pc t = PIn o → n_objs s !! o = Some x → no_closed x = false).
Proof. exact in_open_witness. Qed.
Print Assumptions C60_open_refuted.
(** The clean-up of a namespace unregisters another one of the same name. *)
Theorem C60_removes_refuted : ¬ (∀ ts sched i t o n o', unbegun ts → let s := nrun true (ninit ts) sched in
  n_threads s !! i = Some t → nt_pc t = PDelete o → n_table s !! n = Some o' → o' ≠ o → n_table (nstep true s i) !! n = Some o').
Proof. exact removes_itself_witness. Qed.
Print Assumptions C60_removes_refuted.
(** With the clean-up, the namespace of a client has no parent although no call of the application created it: neither the middlewares nor
    the handlers of the parent apply to the client. *)
Theorem C60_parent_refuted : ¬ (∀ ts sched i t o x, unbegun ts → Forall (λ t, is_Some (nt_client t) ∧ nt_rx t = None) ts →
  let s := nrun true (ninit ts) sched in
  n_threads s !! i = Some t → nt_pc t = PIn o → n_objs s !! o = Some x → is_Some (no_parent x)).
Proof. exact accepted_witness. Qed.
Print Assumptions C60_parent_refuted.
