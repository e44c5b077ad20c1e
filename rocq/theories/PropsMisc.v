(** Properties C46–C49: catch-all listeners, static serving, options, session credentials. *)
From Coq Require Import Ascii Sorting.Sorted.
From Verif Require Import Base GoTypes AnyListeners AnyListenersSpec AnyListenersProofs Serve ServeSpec ServeProofs
  Options OptionsSpec OptionsProofs SessionData SessionDataSpec SessionDataProofs.

(** ** C46 Catch-all listeners are kept in order and removed precisely
    Every event calls exactly the registrations in force, in the implied order. *)
Theorem C46_order : ∀ (h : list aop) (args : list value), codes_distinct h →
  ∃ is ls, in_order h is ∧ Forall2 (registered h) is ls ∧ as_listeners (arun h) = ls ∧
           as_called (arun (h ++ [AEvent args])) = as_called (arun h) ++ ((λ l, (l, args)) <$> ls).
Proof. exact listeners_called. Qed.
Print Assumptions C46_order.
Theorem C46_only_events : ∀ (h : list aop) (op : aop), (∀ args, op ≠ AEvent args) → as_called (arun (h ++ [op])) = as_called (arun h).
Proof. exact only_events_call. Qed.
Print Assumptions C46_only_events.
Definition any_h : list aop :=
  let a := Listener 1 0 in let b := Listener 2 0 in [AOn a; APrepend b; AOn b; APrepend a; AOff (Some b); AEvent [VNum 7]].
Example C46_example : as_called (arun any_h) = [(Listener 1 0, [VNum 7]); (Listener 1 0, [VNum 7]); (Listener 2 0, [VNum 7])] ∧ codes_distinct any_h.
Proof.
  split; [vm_compute; reflexivity|].
  assert (∀ l i, registered any_h i l ∨ any_h !! i = Some (AOff (Some l)) → l = Listener 1 0 ∨ l = Listener 2 0) as H.
  { intros l i [(op & Hop & [->| ->])|Hop]; do 6 (destruct i as [|i]; [by (inversion Hop; subst; auto)|]); by destruct i. }
  intros l l' (i & Hi) (j & Hj) Hc. apply H in Hi, Hj. destruct Hi as [->| ->], Hj as [->| ->]; done.
Qed.
(** OffAny compares code addresses: given another closure of the same function literal, it removes a
    registration that is not its argument's. *)
Theorem C46_same_code_refuted : ∃ h l, l ∈ as_listeners (arun h) ∧
  ∃ l', l' ≠ l ∧ l ∉ as_listeners (arun (h ++ [AOff (Some l')])) ∧ l' ∈ as_listeners (arun (h ++ [AOff (Some l')])).
Proof.
  exists [AOn (Listener 1 10); AOn (Listener 1 20)], (Listener 1 10). split; [by_eval|]. exists (Listener 1 20). split_and!; [done|by_eval|by_eval].
Qed.
Print Assumptions C46_same_code_refuted.

(** ** C47 Static serving never leaves the client directory *)
Theorem C47_methods : ∀ (prefix : text) (so : option bool) (install : option (list text)) (r : request), for_bundle prefix (rq_path r) →
  handle prefix so install r = NotAllowed ↔ rq_method r ≠ "GET" ∧ rq_method r ≠ "HEAD".
Proof. exact handle_method. Qed.
Print Assumptions C47_methods.
Theorem C47_not_modified : ∀ (prefix : text) (so : option bool) (install : option (list text)) (r : request),
  handle prefix so install r = NotModified ↔ for_bundle prefix (rq_path r) ∧ (rq_method r = "GET" ∨ rq_method r = "HEAD") ∧ tag_matches (rq_inm r).
Proof. exact handle_304. Qed.
Print Assumptions C47_not_modified.
(** Whatever the request, what is opened is the client directory or an entry of it, or, if the path ends in
    "..", the installation directory. *)
Theorem C47_inside_partial : ∀ (prefix : text) (so : option bool) (install : option (list text)) (r : request) (dir p : list text),
  install = Some dir → install_dir dir → handle prefix so install r = Opened p →
  (∃ f, component f ∧ p = dir ++ [txt "client-dist"; f]) ∨ p = dir ++ [txt "client-dist"] ∨ (p = dir ∧ base (rq_path r) = txt "..").
Proof. exact opened_inside. Qed.
Print Assumptions C47_inside_partial.
(** If the path contains no question mark, it is one of the files of the bundle. *)
Theorem C47_bundle : ∀ (prefix : text) (so : option bool) (install : option (list text)) (r : request) (dir p : list text),
  install = Some dir → install_dir dir → "?"%char ∉ rq_path r → handle prefix so install r = Opened p →
  ∃ f, bundle_file f ∧ p = dir ++ [txt "client-dist"; f].
Proof. exact opened_bundle. Qed.
Print Assumptions C47_bundle.
(** And the bundle is served. *)
Theorem C47_served : ∀ (prefix : text) (so : option bool) (install : option (list text)) (r : request) (dir : list text) (b f : text),
  install = Some dir → install_dir dir → bare prefix b → bundle_file f → rq_path r = b ++ slash :: f →
  (rq_method r = "GET" ∨ rq_method r = "HEAD") → ¬ tag_matches (rq_inm r) → handle prefix so install r = Opened (dir ++ [txt "client-dist"; f]).
Proof. exact opens_bundle. Qed.
Print Assumptions C47_served.
Definition ex_dir : list text := [txt "opt"; txt "app"].
Example C47_example :
  handle (txt "/socket.io/") None (Some ex_dir) (Request "GET" (txt "/socket.io/socket.io.esm.min.js.map") "") = Opened (ex_dir ++ [txt "client-dist"; txt "socket.io.esm.min.js.map"]) ∧
  handle (txt "/socket.io/") None (Some ex_dir) (Request "GET" (txt "/socket.io/socket.io.js?/../../../secret") "") = Opened (ex_dir ++ [txt "client-dist"; txt "secret"]) ∧
  handle (txt "/socket.io/") None (Some ex_dir) (Request "POST" (txt "/socket.io/socket.io.js") "") = NotAllowed ∧
  handle (txt "/socket.io/") None (Some ex_dir) (Request "GET" (txt "/socket.io/socket.io.js") ("W/" ++ etag)) = NotModified ∧
  handle (txt "/socket.io/") None (Some ex_dir) (Request "GET" (txt "/socket.io/") "") = ToEngine ∧ install_dir ex_dir.
Proof.
  split_and!; try (vm_compute; reflexivity).
  repeat first [apply Forall_nil_2|apply Forall_cons_2]; (split_and!; [done..|by_eval]).
Qed.
(** The check that the path stays inside compares with the installation directory, so the parent of
    client-dist can be opened. *)
Theorem C47_inside_refuted : ∃ prefix so dir r, install_dir dir ∧ handle prefix so (Some dir) r = Opened dir.
Proof.
  exists (txt "/socket.io"), None, ex_dir, (Request "GET" (txt "/socket.io/socket.io.js?/..") ""). split; [|vm_compute; reflexivity].
  repeat first [apply Forall_nil_2|apply Forall_cons_2]; (split_and!; [done..|by_eval]).
Qed.
Print Assumptions C47_inside_refuted.

(** ** C48 Options merge *)
Theorem C48_assign : ∀ s d : sopts, let r := assign s (Some d) in
  overrides (so_serve d) (so_serve s) (so_serve r) ∧ overrides (so_adapter d) (so_adapter s) (so_adapter r) ∧
  overrides (so_parser d) (so_parser s) (so_parser r) ∧ overrides (so_timeout d) (so_timeout s) (so_timeout r) ∧
  overrides (so_csr d) (so_csr s) (so_csr r) ∧ overrides (so_cleanup d) (so_cleanup s) (so_cleanup r).
Proof. exact assign_fields. Qed.
Print Assumptions C48_assign.
Theorem C48_assign_twice : ∀ s d e : sopts, assign (assign s (Some d)) (Some e) = assign s (Some (assign d (Some e))).
Proof. exact assign_assoc. Qed.
Print Assumptions C48_assign_twice.
Theorem C48_cluster_assign : ∀ s d : copts, let r := cassign s (Some d) in
  overrides (cp_interval d) (cp_interval s) (cp_interval r) ∧ overrides (cp_timeout d) (cp_timeout s) (cp_timeout r).
Proof. exact cassign_fields. Qed.
Print Assumptions C48_cluster_assign.
(** The defaults of the server: a value given, even a zero one, is never replaced. *)
Theorem C48_defaults : ∀ opts : option sopts, let o := default default_sopts opts in let c := construct opts in
  (∃ p, in_use "/socket.io" (so_path o) p ∧ without_trailing_slashes p (sc_path c)) ∧
  in_use 45000%Z (so_timeout o) (sc_timeout c) ∧ in_use false (so_serve o) (sc_serve c) ∧ in_use 0 (so_parser o) (sc_parser c) ∧
  in_use (match so_csr o with Some _ => 1 | None => 0 end) (so_adapter o) (sc_adapter c) ∧ in_use false (so_cleanup o) (sc_cleanup c) ∧
  (is_Some (sc_csr c) ↔ is_Some (so_csr o)).
Proof. exact construct_fields. Qed.
Print Assumptions C48_defaults.
Theorem C48_recovery_defaults_partial : ∀ (opts : option sopts) (o : sopts) (c : csr_opts), opts = Some o → so_csr o = Some c → so_adapter o = None →
  ∃ c', sc_csr (construct opts) = Some c' ∧ in_use 120000%Z (co_max c) (max_disconnection c') ∧ in_use true (co_skip c) (skip_middlewares c').
Proof. exact construct_csr. Qed.
Print Assumptions C48_recovery_defaults_partial.
(** If an adapter is given as well, the defaults of the connection state recovery are not applied: sessions
    expire at once and middlewares run on recovery, instead of two minutes and skipping. *)
Theorem C48_recovery_defaults_refuted : ∃ o c c', so_csr o = Some c ∧ co_max c = None ∧ co_skip c = None ∧
  sc_csr (construct (Some o)) = Some c' ∧ max_disconnection c' = 0%Z ∧ skip_middlewares c' = false.
Proof. exists (SOpts None (Some 1) None None (Some (CsrOpts None None)) None None). by repeat eexists. Qed.
Print Assumptions C48_recovery_defaults_refuted.
Theorem C48_cluster_defaults : ∀ data : option copts, let o := default (COpts None None) data in let r := cconstruct data in
  in_use 5000%Z (cp_interval o) r.1 ∧ in_use 10000%Z (cp_timeout o) r.2.
Proof. exact cconstruct_fields. Qed.
Print Assumptions C48_cluster_defaults.
Example C48_example :
  assign (SOpts (Some true) (Some 3) None None None None None) (Some (SOpts (Some false) None (Some 2) (Some 0%Z) None None None)) =
  SOpts (Some false) (Some 3) (Some 2) (Some 0%Z) None None None ∧
  construct (Some (SOpts (Some true) None None (Some 0%Z) (Some (CsrOpts None (Some false))) None (Some "/chat//"))) =
  ServerCfg "/chat" 0 true 0 1 (Some (CsrOpts (Some 120000%Z) (Some false))) false.
Proof. split; vm_compute; reflexivity. Qed.

(** ** C49 Session credentials are parsed conservatively *)
Theorem C49_attempt : ∀ (csr : bool) (a : auth) (p o : string), restore_call csr a = Some (p, o) ↔ csr = true ∧ presents a p o.
Proof. exact restore_call_spec. Qed.
Print Assumptions C49_attempt.
Theorem C49_recovered : ∀ (S : Type) (csr : bool) (restore : string → string → option S) (a : auth) (s : S),
  create_socket csr restore a = Recovered s ↔ csr = true ∧ ∃ p o, presents a p o ∧ restore p o = Some s.
Proof. exact @created_spec. Qed.
Print Assumptions C49_recovered.
Theorem C49_fresh : ∀ (S : Type) (csr : bool) (restore : string → string → option S) (a : auth),
  (∀ p o, ¬ presents a p o) → create_socket csr restore a = Fresh.
Proof. exact @no_credentials_fresh. Qed.
Print Assumptions C49_fresh.
Definition creds (p o : value) : auth := AuthMap {["pid" := p; "offset" := o]}.
Example C49_example :
  restore_call true (creds (VStr "abc") (VStrs ["x"; "7"])) = Some ("abc", "7") ∧ presents (creds (VStr "abc") (VStrs ["x"; "7"])) "abc" "7" ∧
  restore_call true (creds (VStr "abc") (VNum 7)) = None ∧ restore_call true (creds (VStr "abc") (VArr [VStr "7"])) = None ∧
  restore_call true (creds (VStr "") (VStr "7")) = None ∧ restore_call false (creds (VStr "abc") (VStr "7")) = None.
Proof.
  split_and!; try (vm_compute; reflexivity).
  apply (presents_map _ (VStr "abc") (VStrs (["x"] ++ ["7"]))); try (vm_compute; reflexivity); by constructor.
Qed.
(** The credentials of a protocol 3 client (a query string, in lists of strings) are never looked at. *)
Theorem C49_query_ignored : ∀ (csr : bool) (m : gmap string (list string)), restore_call csr (AuthQuery m) = None.
Proof. reflexivity. Qed.
Print Assumptions C49_query_ignored.
