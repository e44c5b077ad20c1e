(** Statements about the table of namespaces under concurrency. *)
From Verif Require Import Base NspConc.

(** The goroutines have not begun. *)
Definition unbegun (ts : list nthread) : Prop := Forall (λ t, nt_pc t = PStart) ts.
(** The namespace object that the goroutine was given: returned by Of, or the one of the connection. *)
Definition given (pc : npc) : option nat :=
  match pc with
  | PGot o | PIn o | PRemove o | PLen o | PClose o | PDelete o | PUnchild o => Some o
  | _ => None
  end.
(** The goroutine found the name unregistered and has not registered its own namespace yet. *)
Definition creating (pc : npc) : bool := match pc with PAlloc _ _ | PAdd _ _ _ | PStore _ _ => true | _ => false end.
(** A moment next to a step of goroutine [i] at which the table satisfied [P]. *)
Definition beside (cl : bool) (ts : list nthread) (sched : list nat) (i : nat) (P : gmap string nat → Prop) : Prop :=
  ∃ s1 s2, sched = s1 ++ s2 ∧ P (n_table (nrun cl (ninit ts) s1)) ∧ (last s1 = Some i ∨ head s2 = Some i).

(** Whoever is given a namespace for a name is given one with that name, which was registered under it at a moment of the call. *)
Definition given_registered : Prop :=
  ∀ cl ts sched i t o, unbegun ts → n_threads (nrun cl (ninit ts) sched) !! i = Some t → given (nt_pc t) = Some o →
    (∃ x, n_objs (nrun cl (ninit ts) sched) !! o = Some x ∧ no_name x = nt_name t) ∧
    beside cl ts sched i (λ tbl, tbl !! nt_name t = Some o).
(** A client is told "Invalid namespace" only if no parent accepts the name, which was not registered at a moment of the call. *)
Definition denied_unregistered : Prop :=
  ∀ cl ts sched i t, unbegun ts → n_threads (nrun cl (ninit ts) sched) !! i = Some t → nt_pc t = PDenied →
    nt_fn t = None ∧ is_Some (nt_client t) ∧ beside cl ts sched i (λ tbl, tbl !! nt_name t = None).
(** The table: the namespace registered under a name has that name, and if a parent created it, it is among the children of the parent
    (so that what is emitted through the parent reaches it). *)
Definition table_sound : Prop :=
  ∀ cl ts sched n o, unbegun ts → let s := nrun cl (ninit ts) sched in n_table s !! n = Some o →
    ∃ x, n_objs s !! o = Some x ∧ no_name x = n ∧ ∀ p, no_parent x = Some p → ∃ c, n_children s !! p = Some c ∧ o ∈ c.
(** new_namespace: at most once per namespace; a registered namespace was announced or is about to be, save the root. *)
Definition announced_once : Prop :=
  ∀ cl ts sched, unbegun ts → let s := nrun cl (ninit ts) sched in
    NoDup (n_events s) ∧
    (∀ n o, n_table s !! n = Some o → o ∈ n_events s ∨ n = "/" ∨ ∃ i t k, n_threads s !! i = Some t ∧ nt_pc t = PEmit o k) ∧
    (∀ o, o ∈ n_events s → ∃ x, n_objs s !! o = Some x ∧ ∃ s1 s2, sched = s1 ++ s2 ∧ n_table (nrun cl (ninit ts) s1) !! no_name x = Some o).
(** Creations of a name that do not overlap: one namespace is created, and everyone who asks for the name is given that one. *)
Definition created_once : Prop :=
  ∀ ts sched n, unbegun ts →
    (∀ s1 s2 i j t u, sched = s1 ++ s2 → n_threads (nrun false (ninit ts) s1) !! i = Some t → n_threads (nrun false (ninit ts) s1) !! j = Some u →
       nt_name t = n → nt_name u = n → creating (nt_pc t) = true → creating (nt_pc u) = true → i = j) →
    let s := nrun false (ninit ts) sched in
    (∀ o o' x x', n_objs s !! o = Some x → n_objs s !! o' = Some x' → no_name x = n → no_name x' = n → o = o') ∧
    (∀ i j t u o o', n_threads s !! i = Some t → n_threads s !! j = Some u → nt_name t = n → nt_name u = n →
       given (nt_pc t) = Some o → given (nt_pc u) = Some o' → o = o' ∧ n_table s !! n = Some o).
(** A registered namespace that nobody else is creating stays the one of its name and is given to all who ask later: without the
    clean-up of empty namespaces; and with it as long as a socket is connected or no parent created it, if it is the
    only one ever created with its name and is not being removed. *)
Definition stays : Prop :=
  ∀ cl ts s1 s2 n o, unbegun ts → let a := nrun cl (ninit ts) s1 in
    n_table a !! n = Some o →
    (∀ i t, n_threads a !! i = Some t → nt_name t = n → creating (nt_pc t) = false ∧ ∀ o' k, nt_pc t = PEmit o' k → o' = o) →
    (cl = false ∨
      (∀ o' x, n_objs a !! o' = Some x → no_name x = n → o' = o) ∧
      (∀ i t o', n_threads a !! i = Some t → nt_name t = n → nt_pc t ≠ PClose o' ∧ nt_pc t ≠ PDelete o') ∧
      (∀ s2a s2b, s2 = s2a ++ s2b → ∃ x, n_objs (nrun cl a s2a) !! o = Some x ∧ (no_socks x ≠ ∅ ∨ no_parent x = None))) →
    let b := nrun cl a s2 in
    n_table b !! n = Some o ∧
    (∀ i t u o', n_threads a !! i = Some t → nt_name t = n → given (nt_pc t) = None →
       n_threads b !! i = Some u → given (nt_pc u) = Some o' → o' = o).
(** The sockets of a namespace are those of the clients connected to it (or about to leave it). *)
Definition sockets_exact : Prop :=
  ∀ cl ts sched, unbegun ts →
    (∀ i j t u a b id, ts !! i = Some t → ts !! j = Some u → nt_client t = Some (id, a) → nt_client u = Some (id, b) → i = j) →
    let s := nrun cl (ninit ts) sched in
    ∀ o x id, n_objs s !! o = Some x →
      (id ∈ no_socks x ↔ ∃ i t, n_threads s !! i = Some t ∧ nt_client t = Some (id, true) ∧ (nt_pc t = PIn o ∨ nt_pc t = PRemove o)).
(** Who creates a namespace: a client, with the parent that accepts its name; or a call of Of, with the parent whose regular expression
    matches the name if there is one.  Without the clean-up the calls of Of on behalf of clients create nothing. *)
Definition created_by : Prop :=
  ∀ cl ts sched o x, unbegun ts → n_objs (nrun cl (ninit ts) sched) !! o = Some x →
    ∃ i t, ts !! i = Some t ∧ nt_name t = no_name x ∧
      ((is_Some (nt_client t) ∧ is_Some (nt_fn t) ∧ no_parent x = nt_fn t) ∨ (no_parent x = nt_rx t ∧ (cl = false → nt_client t = None))).

(** What does not hold. *)
(** One name, one namespace. *)
Definition one_per_name : Prop :=
  ∀ ts sched i j t u o o', unbegun ts → let s := nrun false (ninit ts) sched in
    n_threads s !! i = Some t → n_threads s !! j = Some u → nt_name t = nt_name u →
    nt_client t = None → nt_client u = None → given (nt_pc t) = Some o → given (nt_pc u) = Some o' → o = o'.
(** Clients connected to one name are in the same namespace. *)
Definition together : Prop :=
  ∀ ts sched i j t u o o', unbegun ts → let s := nrun false (ninit ts) sched in
    n_threads s !! i = Some t → n_threads s !! j = Some u → nt_name t = nt_name u → nt_pc t = PIn o → nt_pc u = PIn o' → o = o'.
(** The namespace of a connected client is registered, if the name has been given to one namespace only; *)
Definition in_registered : Prop :=
  ∀ ts sched i t o, unbegun ts → let s := nrun true (ninit ts) sched in
    (∀ o' x, n_objs s !! o' = Some x → no_name x = nt_name t → o' = o) →
    n_threads s !! i = Some t → nt_pc t = PIn o → n_table s !! nt_name t = Some o.
(** and its adapter is open. *)
Definition in_open : Prop :=
  ∀ ts sched i t o x, unbegun ts → let s := nrun true (ninit ts) sched in
    n_threads s !! i = Some t → nt_pc t = PIn o → n_objs s !! o = Some x → no_closed x = false.
(** The clean-up of a namespace unregisters that namespace and no other. *)
Definition removes_itself : Prop :=
  ∀ ts sched i t o n o', unbegun ts → let s := nrun true (ninit ts) sched in
    n_threads s !! i = Some t → nt_pc t = PDelete o → n_table s !! n = Some o' → o' ≠ o → n_table (nstep true s i) !! n = Some o'.
(** The namespace of a client that no call of the application created has a parent that accepted the name. *)
Definition accepted : Prop :=
  ∀ ts sched i t o x, unbegun ts → Forall (λ t, is_Some (nt_client t) ∧ nt_rx t = None) ts → let s := nrun true (ninit ts) sched in
    n_threads s !! i = Some t → nt_pc t = PIn o → n_objs s !! o = Some x → is_Some (no_parent x).
