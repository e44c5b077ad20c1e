(** Property C75: attaching a server and closing it. *)
From Verif Require Import Base Attach AttachSpec AttachProofs.

(** ** C75 Attaching and closing
    [arun h]: the server after any history of Attach/Listen, ServeHandler, Bind, Close and incoming connections; [engines h]: the engines it should
    have made; [bound e h]: engine [e] is one of them, or was passed to Bind. *)
(** One engine per Attach, on its HTTP server; one more if ServeHandler came first; none by later calls of ServeHandler, which return the engine made
    last. *)
Theorem C75_engines : ∀ (h : list aop), eg_http <$> at_made (arun h) = engines h ∧ at_heard (arun h) = bindings 0 h ∧
  at_given (arun (h ++ [AHandler])) = at_given (arun h) ++ [pred (length (engines (h ++ [AHandler])))] ∧
  length (engines (h ++ [AHandler])) = length (engines h) `max` 1.
Proof. exact (λ h, conj (engines_ok h) (conj (heard_bindings h) (handler_given h))). Qed.
Print Assumptions C75_engines.
(** A connection through an open engine of the server makes exactly one client. *)
Theorem C75_own : ∀ (h : list aop) (n : nat),
  at_clients (arun (h ++ [AConn (Own n)])) = at_clients (arun h) ++ if is_open (Own n) (arun h) then [Own n] else [].
Proof. exact conn_own. Qed.
Print Assumptions C75_own.
(** The same for every engine, if none was passed to Bind twice; engines that were not bound make none. *)
Theorem C75_once : ∀ (h : list aop) (e : eid), bound_once h →
  at_clients (arun (h ++ [AConn e])) = at_clients (arun h) ++ if is_open e (arun h) && bool_decide (bound e h) then [e] else [].
Proof. exact conn_once. Qed.
Print Assumptions C75_once.
(** An engine is open from its Attach on, and only Close closes it: exactly those of the HTTP server attached to last, or, if there is none, the engine
    bound last. *)
Theorem C75_close : ∀ (h : list aop), (∀ x, is_open (Own (length (engines h))) (arun (h ++ [AAttach x])) = true) ∧
  (∀ o e, o ≠ AClose → bound e h → is_open e (arun (h ++ [o])) = is_open e (arun h)) ∧
  ∀ e, is_open e (arun (h ++ [AClose])) = true ↔ is_open e (arun h) = true ∧ ¬ closes h e.
Proof. exact (λ h, conj (open_new h) (conj (λ o e Ho He, open_other h o e Ho He) (close_exact h))). Qed.
Print Assumptions C75_close.
(** With one HTTP server (or only ServeHandler), Close closes every engine and no connection comes in any more. *)
Theorem C75_closed : ∀ (h : list aop) (x : nat), (∀ y, y ∈ attaches h → y = x) → (∀ e, ABind e ∉ h) →
  head (filter (λ o, Is_true (makes o)) h) ≠ Some AHandler ∨ attaches h = [] →
  (∀ n, is_open (Own n) (arun (h ++ [AClose])) = false) ∧ ∀ e, at_clients (arun ((h ++ [AClose]) ++ [AConn e])) = at_clients (arun (h ++ [AClose])).
Proof. exact close_quiet. Qed.
Print Assumptions C75_closed.

(** Otherwise engines stay open after Close and go on making clients: a server attached to two HTTP servers, or attached after ServeHandler, or bound
    to an engine and attached. *)
Theorem C75_close_refuted : ∀ (h : list aop) (e : eid), (h, e) ∈ [([AAttach 0; AAttach 1], Own 0); ([AHandler; AAttach 0], Own 0); ([ABind 0; AAttach 0], Foreign 0); ([AAttach 0; ABind 0], Foreign 0)] →
  bound e h ∧ is_open e (arun (h ++ [AClose])) = true ∧ at_clients (arun (h ++ [AClose; AConn e])) = [e].
Proof.
  intros h e H. repeat (apply elem_of_cons in H as [[= -> ->]|H]; [split; [by_eval|split; vm_compute; reflexivity]|]). by apply elem_of_nil in H.
Qed.
Print Assumptions C75_close_refuted.
(** An engine that is passed to Bind twice makes two clients of each connection. *)
Theorem C75_twice_refuted : at_clients (arun [ABind 0; ABind 0; AConn (Foreign 0)]) = [Foreign 0; Foreign 0].
Proof. vm_compute. reflexivity. Qed.
Print Assumptions C75_twice_refuted.

Example C75_example : let h := [ABind 3; AAttach 7; AHandler; AConn (Own 0); AAttach 7; AAttach 9; AHandler; AClose; AConn (Own 2); AConn (Own 1); AConn (Foreign 3)] in
  bound_once h ∧ engines h = [Some 7; Some 7; Some 9] ∧ at_given (arun h) = [0; 2] ∧ at_clients (arun h) = [Own 0; Own 1; Foreign 3] ∧
  (λ n, is_open (Own n) (arun h)) <$> [0; 1; 2] = [true; true; false].
Proof. cbv zeta. split_and!; [by_eval|vm_compute; reflexivity..]. Qed.
Example C75_example_closed : let h := [AAttach 7; AConn (Own 0); AAttach 7; AHandler] in
  Forall (λ y, y = 7) (attaches h) ∧ head (filter (λ o, Is_true (makes o)) h) ≠ Some AHandler ∧ (λ n, is_open (Own n) (arun h)) <$> [0; 1] = [true; true] ∧
  (λ n, is_open (Own n) (arun (h ++ [AClose]))) <$> [0; 1] = [false; false].
Proof. cbv zeta. split_and!; [by_eval|by_eval|vm_compute; reflexivity..]. Qed.
