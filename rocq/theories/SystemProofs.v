(** Proofs about [System.v]: what the functions change, decomposition of a step into a few kinds of
    elementary transitions, and the basic invariant. *)
From Verif Require Import Base GoTypes Rooms RoomsSpec RoomsProofs Adapter Session System SystemSpec.

#[global] Arguments System.cleanup : simpl never.
#[global] Arguments System.client_remove : simpl never.
#[global] Arguments System.onclose : simpl never.
#[global] Arguments System.join : simpl never.
#[global] Arguments System.leave : simpl never.
#[global] Arguments System.reap : simpl never.
#[global] Arguments System.do_connect : simpl never.
#[global] Arguments add_all : simpl never.
#[global] Arguments del_all : simpl never.
#[global] Arguments del : simpl never.

(** What a transition may bring into being: a namespace, a packet to be processed by a socket. *)
Inductive birth := BNsp (m : string) | BTask (k : nat) (p : packet).
Section sysproofs.
  Context (csr skip clean : bool).
  Notation sstep := (step csr skip clean).
  Notation onclose := (onclose csr clean).
  Notation cleanup := (cleanup clean).
  Notation remove := (remove clean).
  Notation reap := (reap clean).

  (** ** Fields changed by each function *)
  Lemma reap_socks n s : c_socks (reap n s).1 = c_socks s.1.
  Proof. unfold System.reap. destruct (c_nsps s.1 !! n) as [np|]; [|done]. destruct (np_parent np); [|done]. by destruct (clean && _). Qed.
  Lemma reap_nsps n s : c_nsps (reap n s).1 = c_nsps s.1.
  Proof. unfold System.reap. destruct (c_nsps s.1 !! n) as [np|]; [|done]. destruct (np_parent np); [|done]. by destruct (clean && _). Qed.
  Lemma reap_clients n s : c_clients (reap n s).1 = c_clients s.1.
  Proof. unfold System.reap. destruct (c_nsps s.1 !! n) as [np|]; [|done]. destruct (np_parent np); [|done]. by destruct (clean && _). Qed.
  Lemma reap_tasks n s : c_tasks (reap n s).1 = c_tasks s.1.
  Proof. unfold System.reap. destruct (c_nsps s.1 !! n) as [np|]; [|done]. destruct (np_parent np); [|done]. by destruct (clean && _). Qed.
  Lemma reap_log n s : (reap n s).2 = s.2.
  Proof. unfold System.reap. destruct (c_nsps s.1 !! n) as [np|]; [|done]. destruct (np_parent np); [|done]. by destruct (clean && _). Qed.

  (** A socket of id [i] is removed from the tables of its namespace. *)
  Definition drop (os : sords) (i : sid) (np : nspc) : nspc :=
    np_set_sockets (delete i (np_sockets np)) (np_set_reg (del_all true (o_leave (so_apply os) i) i (np_reg np)).1 np).

  Lemma cleanup_socks os k s : c_socks (cleanup os k s).1 = alter (λ a, sk_set (sk_connected a) false a) k (c_socks s.1).
  Proof.
    unfold System.cleanup, System.remove, leave_all. cbn. destruct (c_socks s.1 !! k) eqn:E; cbn; rewrite E; [|done].
    rewrite reap_socks. done.
  Qed.
  Lemma cleanup_nsps os k a s : c_socks s.1 !! k = Some a →
    c_nsps (cleanup os k s).1 = alter (drop os (sk_id a)) (sk_nsp a) (c_nsps s.1).
  Proof.
    intros E. unfold System.cleanup, System.remove, leave_all. cbn. rewrite E; cbn; rewrite E.
    rewrite reap_nsps. cbn. rewrite <- list_alter_compose. done.
  Qed.
  Lemma cleanup_clients os k s : c_clients (cleanup os k s).1 = c_clients s.1.
  Proof.
    unfold System.cleanup, System.remove, leave_all. cbn. destruct (c_socks s.1 !! k) eqn:E; cbn; rewrite E; [|done].
    rewrite reap_clients. done.
  Qed.
  Lemma cleanup_tasks os k s : c_tasks (cleanup os k s).1 = c_tasks s.1.
  Proof.
    unfold System.cleanup, System.remove, leave_all. cbn. destruct (c_socks s.1 !! k) eqn:E; cbn; rewrite E; [|done].
    rewrite reap_tasks. done.
  Qed.
  Lemma cleanup_log os k s : (cleanup os k s).2 = s.2.
  Proof.
    unfold System.cleanup, System.remove, leave_all. cbn. destruct (c_socks s.1 !! k) eqn:E; cbn; rewrite E; [|done].
    rewrite reap_log. done.
  Qed.

  Lemma client_remove_socks k s : c_socks (client_remove k s).1 = c_socks s.1.
  Proof. unfold client_remove. destruct (c_socks s.1 !! k); [|done]. by destruct (_ !! sk_id s0). Qed.
  Lemma client_remove_nsps k s : c_nsps (client_remove k s).1 = c_nsps s.1.
  Proof. unfold client_remove. destruct (c_socks s.1 !! k); [|done]. by destruct (_ !! sk_id s0). Qed.
  Lemma client_remove_reg k s : c_reg (client_remove k s).1 = c_reg s.1.
  Proof. unfold client_remove. destruct (c_socks s.1 !! k); [|done]. by destruct (_ !! sk_id s0). Qed.
  Lemma client_remove_parents k s : c_parents (client_remove k s).1 = c_parents s.1.
  Proof. unfold client_remove. destruct (c_socks s.1 !! k); [|done]. by destruct (_ !! sk_id s0). Qed.
  Lemma client_remove_tasks k s : c_tasks (client_remove k s).1 = c_tasks s.1.
  Proof. unfold client_remove. destruct (c_socks s.1 !! k); [|done]. by destruct (_ !! sk_id s0). Qed.
  Lemma client_remove_log k s : (client_remove k s).2 = s.2.
  Proof. unfold client_remove. destruct (c_socks s.1 !! k); [|done]. by destruct (_ !! sk_id s0). Qed.

  (** ** Lookups after the primitive updates *)
  Lemma alter_lookup {A} (f : A → A) i j (l : list A) : alter f i l !! j = if decide (j = i) then f <$> l !! j else l !! j.
  Proof. destruct (decide (j = i)) as [->|]; [by rewrite list_lookup_alter|by rewrite list_lookup_alter_ne]. Qed.

  Lemma client_remove_clients k a s c cl : c_socks s.1 !! k = Some a → c_clients (client_remove k s).1 !! c = Some cl →
    ∃ cl0, c_clients s.1 !! c = Some cl0 ∧ cl_id cl = cl_id cl0 ∧ cl_p3 cl = cl_p3 cl0 ∧ cl_open cl = cl_open cl0 ∧ cl_timer cl = cl_timer cl0 ∧
      cl_sockets cl = (if decide (c = sk_client a) then delete (sk_id a) (cl_sockets cl0) else cl_sockets cl0) ∧
      (∀ m k', cl_nsps cl !! m = Some k' → cl_nsps cl0 !! m = Some k').
  Proof.
    intros E. unfold client_remove. rewrite E. destruct (csocks_of s.1 (sk_client a) !! sk_id a) as [j|] eqn:Ej.
    - cbn. rewrite alter_lookup. case_decide.
      + subst. intros (cl0 & -> & H)%fmap_Some. subst. exists cl0. split_and!; try done. cbn.
        intros m k'. rewrite lookup_delete_Some. naive_solver.
      + intros ->. exists cl. split_and!; done.
    - intros Ec. exists cl. split_and!; try done. case_decide; [|done]. subst.
      unfold csocks_of in Ej. rewrite Ec in Ej. by rewrite delete_notin.
  Qed.
  Lemma client_remove_csocks k a s c : c_socks s.1 !! k = Some a →
    csocks_of (client_remove k s).1 c = if decide (c = sk_client a) then delete (sk_id a) (csocks_of s.1 c) else csocks_of s.1 c.
  Proof.
    intros E. unfold client_remove. rewrite E. destruct (csocks_of s.1 (sk_client a) !! sk_id a) as [j|] eqn:Ej.
    - unfold csocks_of. cbn. rewrite alter_lookup. case_decide; [subst|done].
      destruct (c_clients s.1 !! sk_client a); [done|]. cbn. by rewrite delete_empty.
    - case_decide; [subst|done]. by rewrite delete_notin.
  Qed.
  Lemma client_remove_length k s : length (c_clients (client_remove k s).1) = length (c_clients s.1).
  Proof.
    unfold client_remove. destruct (c_socks s.1 !! k); [|done]. destruct (_ !! sk_id s0); [|done]. cbn. by rewrite alter_length.
  Qed.

  Lemma onclose_eq os reason k a s : c_socks s.1 !! k = Some a → sk_connected a = true →
    onclose os reason k s =
      log (EDisconnect k reason) (upd_sock k (λ a, sk_set false (sk_can_join a) a)
        (client_remove k (cleanup os k
          ((if csr && bool_decide (reason ∈ recoverable_reasons) then log (EPersist k) else id) (log (EDisconnecting k reason) s))))).
  Proof. intros E Ec. unfold System.onclose. rewrite E, Ec. by destruct (csr && _). Qed.
  Definition close_logs (reason : string) (k : nat) (x : core) : list (core * eff) :=
    (x, EDisconnecting k reason) :: (if csr && bool_decide (reason ∈ recoverable_reasons) then [(x, EPersist k)] else []).
  Lemma onclose_pre reason k s :
    ((if csr && bool_decide (reason ∈ recoverable_reasons) then log (EPersist k) else id) (log (EDisconnecting k reason) s))
    = (s.1, s.2 ++ close_logs reason k s.1).
  Proof. unfold close_logs, log. destruct (csr && _); cbn; [|done]. by rewrite <- app_assoc. Qed.
  Lemma onclose_socks os reason k a s : c_socks s.1 !! k = Some a → sk_connected a = true →
    c_socks (onclose os reason k s).1 = alter (sk_set false false) k (c_socks s.1).
  Proof.
    intros E Ec. rewrite (onclose_eq os reason k a) by done. rewrite onclose_pre by done.
    cbn. rewrite client_remove_socks, cleanup_socks. cbn. rewrite <- list_alter_compose. by apply list_alter_ext.
  Qed.
  Lemma onclose_nsps os reason k a s : c_socks s.1 !! k = Some a → sk_connected a = true →
    c_nsps (onclose os reason k s).1 = alter (drop os (sk_id a)) (sk_nsp a) (c_nsps s.1).
  Proof.
    intros E Ec. rewrite (onclose_eq os reason k a) by done. rewrite onclose_pre by done.
    cbn. rewrite client_remove_nsps. rewrite (cleanup_nsps _ _ a) by done. done.
  Qed.
  Lemma onclose_csocks os reason k a s c : c_socks s.1 !! k = Some a → sk_connected a = true →
    csocks_of (onclose os reason k s).1 c = if decide (c = sk_client a) then delete (sk_id a) (csocks_of s.1 c) else csocks_of s.1 c.
  Proof.
    intros E Ec. rewrite (onclose_eq os reason k a) by done. rewrite onclose_pre by done. unfold csocks_of at 1. cbn.
    change (match c_clients (client_remove k (cleanup os k (s.1, s.2 ++ close_logs reason k s.1))).1 !! c with
      Some cl => cl_sockets cl | None => ∅ end) with (csocks_of (client_remove k (cleanup os k (s.1, s.2 ++ close_logs reason k s.1))).1 c).
    rewrite (client_remove_csocks _ (sk_set (sk_connected a) false a)).
    - cbn. unfold csocks_of. rewrite cleanup_clients. done.
    - rewrite cleanup_socks. cbn. rewrite list_lookup_alter, E. done.
  Qed.
  Lemma onclose_tasks os reason k s : c_tasks (onclose os reason k s).1 = c_tasks s.1.
  Proof.
    unfold System.onclose. destruct (c_socks s.1 !! k) as [a|] eqn:E; [|done]. destruct (sk_connected a); [|done].
    cbn. rewrite client_remove_tasks, cleanup_tasks. by destruct (csr && _).
  Qed.
  Lemma onclose_clients os reason k s c cl : c_clients (onclose os reason k s).1 !! c = Some cl →
    ∃ cl0, c_clients s.1 !! c = Some cl0 ∧ cl_id cl = cl_id cl0 ∧ cl_p3 cl = cl_p3 cl0 ∧ cl_open cl = cl_open cl0 ∧ cl_timer cl = cl_timer cl0 ∧
      (∀ m k', cl_nsps cl !! m = Some k' → cl_nsps cl0 !! m = Some k').
  Proof.
    unfold System.onclose. destruct (c_socks s.1 !! k) as [a|] eqn:E; [|by intros ->; exists cl].
    destruct (sk_connected a) eqn:Ec; [|by intros ->; exists cl].
    pose proof (onclose_eq os reason k a s E Ec) as Eq. unfold System.onclose in Eq. rewrite E, Ec in Eq. rewrite Eq. clear Eq.
    rewrite onclose_pre. cbn. intros H.
    eapply (client_remove_clients k (sk_set (sk_connected a) false a)) in H as (cl0 & H0 & ?);
      [|rewrite cleanup_socks; cbn; rewrite list_lookup_alter, E; done]. rewrite cleanup_clients in H0. exists cl0. naive_solver.
  Qed.
  Lemma onclose_clients_length os reason k s : length (c_clients (onclose os reason k s).1) = length (c_clients s.1).
  Proof.
    unfold System.onclose. destruct (c_socks s.1 !! k) as [a|] eqn:E; [|done]. destruct (sk_connected a); [|done].
    cbn. rewrite client_remove_length, cleanup_clients. by destruct (csr && _).
  Qed.
  Lemma onclose_log os reason k a s : c_socks s.1 !! k = Some a → sk_connected a = true →
    (onclose os reason k s).2 = s.2 ++ close_logs reason k s.1 ++ [((onclose os reason k s).1, EDisconnect k reason)].
  Proof.
    intros E Ec. rewrite (onclose_eq os reason k a) by done. rewrite onclose_pre by done. cbn.
    rewrite client_remove_log, cleanup_log. cbn. by rewrite <- app_assoc.
  Qed.

  (** Connecting a socket. *)
  Definition enter (a : sock) (k : nat) (np : nspc) : nspc :=
    np_set_reg (add_all (sk_id a) (remove_dups [sk_id a]) (np_reg np)).1 (np_set_sockets (<[sk_id a := k]> (np_sockets np)) np).
  Definition hello (a : sock) (x : core) : packet :=
    Packet CONNECT (name_of x (sk_nsp a))
      (if match c_clients x !! sk_client a with Some cl => cl_p3 cl | None => false end then [] else [VStr (sk_id a)]) None.
  (** The state in which CONNECT is written, and the one in which the events are emitted. *)
  Definition conn1 (a : sock) (k : nat) (x : core) : core :=
    set_nsps (alter (enter a k) (sk_nsp a) (c_nsps x)) (set_socks (alter (sk_set true true) k (c_socks x)) x).
  Definition conn2 (a : sock) (k : nat) (x : core) : core :=
    set_clients (alter (λ c, cl_no_timer (cl_set_tables (<[sk_id a := k]> (cl_sockets c)) (<[name_of x (sk_nsp a) := k]> (cl_nsps c)) c)) (sk_client a) (c_clients x))
      (conn1 a k x).
  Lemma do_connect_eq k a s : c_socks s.1 !! k = Some a → sk_can_join a = true → is_open s.1 (sk_client a) = true →
    do_connect k s = (conn2 a k s.1, s.2 ++ [(conn1 a k s.1, EWrite (sk_client a) (hello a s.1));
      (conn2 a k s.1, EConnect k (match c_nsps s.1 !! sk_nsp a with Some n => np_on n | None => [] end)); (conn2 a k s.1, EConnection k)]).
  Proof.
    intros E Ej Eo. unfold do_connect. rewrite E. cbv zeta.
    assert (join k [sk_id a] (upd_sock k (λ a0, sk_set true (sk_can_join a0) a0)
      (upd_nsp (sk_nsp a) (λ n, np_set_sockets (<[sk_id a:=k]> (np_sockets n)) n) s)) = (conn1 a k s.1, s.2)) as ->.
    { unfold join. cbn. rewrite list_lookup_alter, E. cbn. rewrite Ej. cbn.
      unfold upd_nsp, on_core, conn1. cbn -[remove_dups]. f_equal. unfold set_nsps. cbn -[remove_dups]. f_equal.
      - apply list_eq. intros j. rewrite !alter_lookup. case_decide; [|done]. subst. rewrite E. cbn. by rewrite Ej.
      - rewrite <- list_alter_compose. done. }
    assert (name_of (conn1 a k s.1) (sk_nsp a) = name_of s.1 (sk_nsp a)) as Enm.
    { unfold name_of. cbn. rewrite list_lookup_alter. by destruct (c_nsps s.1 !! sk_nsp a). }
    assert (sock_packet k CONNECT (if match c_clients (conn1 a k s.1, s.2).1 !! sk_client a with Some cl => cl_p3 cl | None => false end then [] else [VStr (sk_id a)])
      (conn1 a k s.1, s.2) = (conn1 a k s.1, s.2 ++ [(conn1 a k s.1, EWrite (sk_client a) (hello a s.1))])) as ->.
    { unfold sock_packet. cbn [fst snd]. replace (c_socks (conn1 a k s.1) !! k) with (Some (sk_set true true a)) by (cbn; by rewrite list_lookup_alter, E).
      cbn [sk_client sk_nsp sk_set]. rewrite Enm. unfold write. cbn [fst]. replace (is_open (conn1 a k s.1) (sk_client a)) with true by done. done. }
    cbn [fst]. rewrite Enm. unfold upd_client, on_core, log. cbn [fst snd].
    replace (match c_nsps (set_clients _ (conn1 a k s.1)) !! sk_nsp a with Some n => np_on n | None => [] end)
      with (match c_nsps s.1 !! sk_nsp a with Some n => np_on n | None => [] end).
    2:{ cbn. rewrite list_lookup_alter. by destruct (c_nsps s.1 !! sk_nsp a). }
    rewrite <- !app_assoc. done.
  Qed.

  (** ** Elementary transitions *)
  Definition quiet (e : eff) : Prop :=
    match e with EWrite _ p => p_type p ≠ CONNECT | EErr _ | EHangup _ => True | _ => False end.
  Definition incoming (e : eff) : Prop := match e with EAny _ _ | EAck _ _ => True | _ => False end.
  (** Transitions that only close; [Q]: what is known of the sockets closed ([Some] with the reason) and of
      those to which an event is dispatched ([None]; if [Q None] is empty no packet arrives). *)
  Context (Q : option string → sock → Prop).
  Inductive cprim : sys → sys → Prop :=
    | pr_note e s : quiet e → cprim s (log e s)
    | pr_in e a s : Q None a → incoming e → cprim s (log e s)
    | pr_dispatch k p a s : Q None a → c_socks s.1 !! k = Some a → sk_connected a = true → cprim s (log (EDispatch k p) s)
    | pr_shut c s : cprim s (upd_client c cl_shut s)
    | pr_timer c s : is_open s.1 c = false → cprim s (upd_client c cl_no_timer s)
    | pr_take i s : cprim s (on_core (λ y, set_tasks (delete i (c_tasks y)) y) s)
    | pr_close os reason k a s : Q (Some reason) a → sords_ok os → c_socks s.1 !! k = Some a → sk_connected a = true → cprim s (onclose os reason k s).
  (** All of them; [C]: what is known of the sockets created; [D]: of the names of new namespaces and of the
      packets accepted. *)
  Context (C : nat → sock → Prop) (D : birth → Prop).
  Inductive prim : sys → sys → Prop :=
    | pr_c s s' : cprim s s' → prim s s'
    | pr_open id p3 s : prim s (on_core (λ y, set_clients (c_clients y ++ [Client id p3 true ∅ ∅ true]) y) s)
    | pr_task c k p s : D (BTask k p) → cnsps_of s.1 c !! p_nsp p = Some k → p_type p ≠ CONNECT → p_type p ≠ CONNECT_ERROR → is_open s.1 c = true →
        prim s (on_core (λ y, set_tasks (c_tasks y ++ [(k, p)]) y) s)
    | pr_join k rs s : prim s (join k rs s)
    | pr_leave k r s : prim s (leave k r s)
    | pr_create a s : C (length (c_socks s.1)) a → sk_connected a = false → sk_can_join a = true → sk_nsp a < length (c_nsps s.1) → sk_client a < length (c_clients s.1) →
        prim s (on_core (λ y, set_socks (c_socks y ++ [a]) y) s)
    | pr_connect k a s : c_socks s.1 !! k = Some a → sk_connected a = false → sk_can_join a = true → is_open s.1 (sk_client a) = true →
        prim s (do_connect k s)
    | pr_refuse os k a s : sords_ok os → c_socks s.1 !! k = Some a → sk_connected a = false → sk_can_join a = true → prim s (cleanup os k s)
    | pr_nsp name s : D (BNsp name) → c_reg s.1 !! name = None → name ≠ "/" → prim s (log (ENewNsp (length (c_nsps s.1))) (new_nsp (Nspc name None empty_registry ∅ [] []) s))
    | pr_child p name q s : D (BNsp name) → c_reg s.1 !! name = None → c_parents s.1 !! p = Some q → prim s (create_child p name s)
    | pr_parent m fns s : prim s (on_core (λ x, set_parents (c_parents x ++ [Parent m ∅ fns []]) x) s)
    | pr_on n f s : prim s (upd_nsp n (np_add_on f) s)
    | pr_use n f s : prim s (upd_nsp n (np_add_fn f) s)
    | pr_pon p f s : prim s (upd_parent p (pa_add_on f) s)
    | pr_puse p f s : prim s (upd_parent p (pa_add_fn f) s).
  Lemma rtc_c s s' : rtc cprim s s' → rtc prim s s'.
  Proof. induction 1; [done|]. eapply rtc_l; [by apply pr_c|done]. Qed.

  (** ** The basic invariant *)
  Record invA (x : core) : Prop := {
    ia_nsock : ∀ n i k, socks_of x n !! i = Some k → ∃ a, c_socks x !! k = Some a ∧ sk_id a = i ∧ sk_nsp a = n ∧ sk_connected a = true;
    ia_csock : ∀ c i k, csocks_of x c !! i = Some k → ∃ a, c_socks x !! k = Some a ∧ sk_id a = i ∧ sk_client a = c ∧ sk_connected a = true;
    ia_reg : ∀ n, reg_inv (reg_of x n);
    ia_room : ∀ n i, is_Some (rg_sids (reg_of x n) !! i) → ∃ k a, c_socks x !! k = Some a ∧ sk_id a = i ∧ sk_nsp a = n ∧ sk_can_join a = true;
    ia_wf : ∀ k a, c_socks x !! k = Some a → sk_nsp a < length (c_nsps x) ∧ sk_client a < length (c_clients x);
    ia_live : ∀ k a, c_socks x !! k = Some a → sk_connected a = true → sk_can_join a = true;
    ia_name : ∀ m n, c_reg x !! m = Some n → ∃ np, c_nsps x !! n = Some np ∧ np_name np = m;
    ia_root : c_reg x !! "/" = Some 0;
    ia_child : ∀ n np p, c_nsps x !! n = Some np → np_parent np = Some p → np_name np ≠ "/"
  }.
  (** States that differ only in fields the invariant does not mention. *)
  Lemma invA_ext x y : c_socks y = c_socks x → (∀ n, socks_of y n = socks_of x n) → (∀ c, csocks_of y c = csocks_of x c) →
    (∀ n, reg_of y n = reg_of x n) → length (c_nsps y) = length (c_nsps x) → length (c_clients x) ≤ length (c_clients y) →
    c_reg y = c_reg x → (∀ n, (λ np, (np_name np, np_parent np)) <$> c_nsps y !! n = (λ np, (np_name np, np_parent np)) <$> c_nsps x !! n) →
    invA x → invA y.
  Proof.
    intros E1 E2 E3 E4 E5 E6 E7 E8 [A1 A2 A3 A4 A5 A6 A7 A8 A9]. split.
    - intros n i k. rewrite E2, E1. apply A1.
    - intros c i k. rewrite E3, E1. apply A2.
    - intros n. rewrite E4. apply A3.
    - intros n i. rewrite E4. setoid_rewrite E1. apply A4.
    - intros k a. rewrite E1, E5. intros H%A5. lia.
    - intros k a. rewrite E1. apply A6.
    - intros m n. rewrite E7. intros (np & H & <-)%A7. specialize (E8 n). rewrite H in E8. cbn in E8.
      apply fmap_Some in E8 as (np' & ? & [= ? ?]). eauto.
    - by rewrite E7.
    - intros n np p H Hp. specialize (E8 n). rewrite H in E8. cbn in E8. symmetry in E8.
      apply fmap_Some in E8 as (np' & H' & E). injection E as E E'. rewrite E. eapply A9; [done|]. rewrite <- E'. done.
  Qed.

  Lemma csocks_alter f c x c' : (∀ cl, cl_sockets (f cl) = cl_sockets cl) → csocks_of (set_clients (alter f c (c_clients x)) x) c' = csocks_of x c'.
  Proof. intros H. unfold csocks_of. cbn. rewrite alter_lookup. case_decide; [subst|done]. destruct (c_clients x !! c); cbn; auto. Qed.
  Lemma socks_alter f n x n' : (∀ np, np_sockets (f np) = np_sockets np) → socks_of (set_nsps (alter f n (c_nsps x)) x) n' = socks_of x n'.
  Proof. intros H. unfold socks_of. cbn. rewrite alter_lookup. case_decide; [subst|done]. destruct (c_nsps x !! n); cbn; auto. Qed.
  Lemma reg_alter f n x n' : (∀ np, np_reg (f np) = np_reg np) → reg_of (set_nsps (alter f n (c_nsps x)) x) n' = reg_of x n'.
  Proof. intros H. unfold reg_of. cbn. rewrite alter_lookup. case_decide; [subst|done]. destruct (c_nsps x !! n); cbn; auto. Qed.
  Lemma names_alter f n (x : list nspc) n' : (∀ np, np_name (f np) = np_name np ∧ np_parent (f np) = np_parent np) →
    (λ np, (np_name np, np_parent np)) <$> alter f n x !! n' = (λ np, (np_name np, np_parent np)) <$> x !! n'.
  Proof.
    intros H. rewrite alter_lookup. case_decide; [subst|done]. destruct (x !! n) as [np|]; [|done]. cbn.
    by destruct (H np) as [-> ->].
  Qed.
  Lemma invA_set_client f c s : (∀ cl, cl_sockets (f cl) = cl_sockets cl) → invA s.1 → invA (upd_client c f s).1.
  Proof.
    intros H. apply invA_ext; try done; cbn.
    - intros c'. by apply csocks_alter.
    - by rewrite alter_length.
  Qed.
  Lemma invA_set_nsp f n s : (∀ np, np_sockets (f np) = np_sockets np ∧ np_reg (f np) = np_reg np ∧ np_name (f np) = np_name np ∧ np_parent (f np) = np_parent np) →
    invA s.1 → invA (upd_nsp n f s).1.
  Proof.
    intros H. apply invA_ext; try done; cbn.
    - intros n'. apply socks_alter. apply H.
    - intros n'. apply reg_alter. apply H.
    - by rewrite alter_length.
    - intros n'. apply names_alter. intros np. by destruct (H np) as (_ & _ & ? & ?).
  Qed.
  (** Changing the rooms of one namespace. *)
  Lemma invA_set_reg n f s : (∀ g, reg_inv g → reg_inv (f g)) →
    (∀ i, is_Some (rg_sids (f (reg_of s.1 n)) !! i) → is_Some (rg_sids (reg_of s.1 n) !! i) ∨
      ∃ k a, c_socks s.1 !! k = Some a ∧ sk_id a = i ∧ sk_nsp a = n ∧ sk_can_join a = true) →
    invA s.1 → invA (upd_nsp n (λ np, np_set_reg (f (np_reg np)) np) s).1.
  Proof.
    intros H1 H2 [A1 A2 A3 A4 A5 A6 A7 A8 A9].
    assert (∀ m, reg_of (upd_nsp n (λ np, np_set_reg (f (np_reg np)) np) s).1 m = reg_of s.1 m ∨ (m = n ∧ reg_of (upd_nsp n (λ np, np_set_reg (f (np_reg np)) np) s).1 m = f (reg_of s.1 m))) as Hr.
    { intros m. unfold reg_of. cbn. rewrite alter_lookup. case_decide; [subst|by left]. destruct (c_nsps s.1 !! n); cbn; auto. }
    split; try done.
    - intros m i k. cbn. rewrite socks_alter by done. apply A1.
    - intros m. destruct (Hr m) as [->|[-> ->]]; [apply A3|apply H1, A3].
    - intros m i. destruct (Hr m) as [->|[-> ->]]; [apply A4|]. intros [Hs|Hs]%H2; [by apply A4|done].
    - intros k a Hk. cbn. rewrite alter_length. by apply (A5 k a).
    - intros m j Hm. destruct (A7 m j Hm) as (np & Hn & <-). cbn. rewrite alter_lookup. case_decide; [subst|eauto]. rewrite Hn. cbn. eauto.
    - intros m np p. cbn. rewrite alter_lookup. case_decide; [|eauto]. intros (np0 & Hnp & ->)%fmap_Some. cbn. eauto.
  Qed.
  Lemma invA_join k rs s : invA s.1 → invA (join k rs s).1.
  Proof.
    intros A. unfold join. destruct (c_socks s.1 !! k) as [a|] eqn:E; [|done]. destruct (sk_can_join a) eqn:Ej; [|done].
    apply (invA_set_reg _ (λ g, (add_all (sk_id a) (remove_dups rs) g).1)); [intros; by apply add_all_inv| |done].
    intros i. rewrite add_all_known. intros [?| ->]; [by left|right; eauto 10].
  Qed.
  Lemma invA_leave k r s : invA s.1 → invA (leave k r s).1.
  Proof.
    intros A. unfold leave. destruct (c_socks s.1 !! k) as [a|] eqn:E; [|done].
    apply (invA_set_reg _ (λ g, (del true (sk_id a) r g).1)); [intros; by apply del_inv| |done].
    intros i. rewrite del_known. by left.
  Qed.
  Lemma invA_create a s : sk_connected a = false → sk_nsp a < length (c_nsps s.1) → sk_client a < length (c_clients s.1) →
    invA s.1 → invA (on_core (λ y, set_socks (c_socks y ++ [a]) y) s).1.
  Proof.
    intros Hc Hn Hl [A1 A2 A3 A4 A5 A6 A7 A8 A9].
    assert (∀ k b, c_socks s.1 !! k = Some b → (c_socks s.1 ++ [a]) !! k = Some b) as Hk by (intros; by apply lookup_app_l_Some).
    split; try done.
    - intros n i k (b & ? & ?)%A1. exists b. cbn. auto.
    - intros c i k (b & ? & ?)%A2. exists b. cbn. auto.
    - intros n i (k & b & ? & ?)%A4. exists k, b. cbn. auto.
    - intros k b. cbn. intros [H|[_ H]]%lookup_app_Some; [by apply (A5 k)|].
      apply list_lookup_singleton_Some in H as [_ <-]. done.
    - intros k b. cbn. intros [H|[_ H]]%lookup_app_Some; [by apply (A6 k)|].
      apply list_lookup_singleton_Some in H as [_ <-]. congruence.
  Qed.

  (** The namespace of socket [a] is unregistered when [a] leaves it. *)
  Definition reaps (a : sock) (x : core) : option (string * nat) :=
    match c_nsps x !! sk_nsp a with
    | Some np => match np_parent np with
                 | Some p => if clean && bool_decide (delete (sk_id a) (np_sockets np) = ∅) then Some (np_name np, p) else None
                 | None => None
                 end
    | None => None
    end.
  Lemma cleanup_reg os k a s : c_socks s.1 !! k = Some a →
    c_reg (cleanup os k s).1 = match reaps a s.1 with Some (m, _) => delete m (c_reg s.1) | None => c_reg s.1 end.
  Proof.
    intros E. unfold System.cleanup, System.remove, leave_all. cbn. rewrite E; cbn; rewrite E. unfold reaps, System.reap. cbn.
    rewrite !list_lookup_alter. destruct (c_nsps s.1 !! sk_nsp a) as [np|]; [|done]. cbn.
    destruct (np_parent np); [|done]. by destruct (clean && _).
  Qed.
  Lemma cleanup_parents os k a s : c_socks s.1 !! k = Some a →
    c_parents (cleanup os k s).1 = match reaps a s.1 with Some (_, p) => alter (λ q, pa_set_children (pa_children q ∖ {[sk_nsp a]}) q) p (c_parents s.1) | None => c_parents s.1 end.
  Proof.
    intros E. unfold System.cleanup, System.remove, leave_all. cbn. rewrite E; cbn; rewrite E. unfold reaps, System.reap. cbn.
    rewrite !list_lookup_alter. destruct (c_nsps s.1 !! sk_nsp a) as [np|]; [|done]. cbn.
    destruct (np_parent np); [|done]. by destruct (clean && _).
  Qed.
  Lemma onclose_reg os reason k a s : c_socks s.1 !! k = Some a → sk_connected a = true →
    c_reg (onclose os reason k s).1 = match reaps a s.1 with Some (m, _) => delete m (c_reg s.1) | None => c_reg s.1 end.
  Proof.
    intros E Ec. rewrite (onclose_eq os reason k a) by done. rewrite onclose_pre. cbn.
    rewrite client_remove_reg. rewrite (cleanup_reg _ _ a) by done. done.
  Qed.
  Lemma onclose_parents os reason k a s : c_socks s.1 !! k = Some a → sk_connected a = true →
    c_parents (onclose os reason k s).1 = match reaps a s.1 with Some (_, p) => alter (λ q, pa_set_children (pa_children q ∖ {[sk_nsp a]}) q) p (c_parents s.1) | None => c_parents s.1 end.
  Proof.
    intros E Ec. rewrite (onclose_eq os reason k a) by done. rewrite onclose_pre. cbn.
    rewrite client_remove_parents. rewrite (cleanup_parents _ _ a) by done. done.
  Qed.

  (** A state [y] obtained from [x] by removing socket [k] (fields [a], now [sk_set con false]) from its namespace. *)
  Lemma invA_drop os k a con x y : sords_ok os → invA x → c_socks x !! k = Some a →
    (con = true → False) →
    c_socks y = alter (sk_set con false) k (c_socks x) →
    c_nsps y = alter (drop os (sk_id a)) (sk_nsp a) (c_nsps x) →
    (∀ c i j, csocks_of y c !! i = Some j → csocks_of x c !! i = Some j ∧ j ≠ k) →
    length (c_clients y) = length (c_clients x) →
    c_reg y = match reaps a x with Some (m, _) => delete m (c_reg x) | None => c_reg x end →
    invA y.
  Proof.
    intros Hos [A1 A2 A3 A4 A5 A6 A7 A8 A9] Ek Hcon Es En Ec Elen Er.
    assert (∀ j b, j ≠ k → c_socks x !! j = Some b → c_socks y !! j = Some b) as Hk.
    { intros j b Hj Hb. by rewrite Es, list_lookup_alter_ne. }
    assert (∀ n, socks_of y n = if decide (n = sk_nsp a) then delete (sk_id a) (socks_of x n) else socks_of x n) as Hs.
    { intros n. unfold socks_of. rewrite En, alter_lookup. case_decide; [subst|done]. destruct (c_nsps x !! sk_nsp a); [done|]. cbn. by rewrite delete_empty. }
    assert (∀ n, reg_of y n = if decide (n = sk_nsp a) then (del_all true (o_leave (so_apply os) (sk_id a)) (sk_id a) (reg_of x n)).1 else reg_of x n) as Hr.
    { intros n. unfold reg_of. rewrite En, alter_lookup. case_decide; [subst|done]. destruct (c_nsps x !! sk_nsp a); [done|]. cbn. by vm_compute. }
    assert (order_ok (o_leave (so_apply os) (sk_id a))) as Ho by apply Hos.
    split.
    - intros n i j Hj. rewrite Hs in Hj.
      assert (socks_of x n !! i = Some j ∧ (n = sk_nsp a → i ≠ sk_id a)) as [H0 H1].
      { case_decide; [|done]. apply lookup_delete_Some in Hj as [? ?]. done. }
      destruct (A1 _ _ _ H0) as (b & Hb & Hi & Hn & Hcn). exists b. split_and!; try done. apply Hk; [|done].
      intros ->. rewrite Ek in Hb. injection Hb as <-. subst. by apply H1.
    - intros c i j [H0 H1]%Ec.
      destruct (A2 _ _ _ H0) as (b & Hb & Hi & Hn & Hcn). exists b. split_and!; try done. by apply Hk.
    - intros n. rewrite Hr. case_decide; [|done]. by apply del_all_inv.
    - intros n i Hi. rewrite Hr in Hi.
      assert (is_Some (rg_sids (reg_of x n) !! i) ∧ (n = sk_nsp a → i ≠ sk_id a)) as [H0 H1].
      { case_decide; [|done]. rewrite del_all_known in Hi. destruct Hi. done. }
      destruct (A4 _ _ H0) as (j & b & Hb & Hbi & Hn & Hcn). exists j, b. split_and!; try done. apply Hk; [|done].
      intros ->. rewrite Ek in Hb. injection Hb as <-. subst. by apply H1.
    - intros j b. rewrite Es, En, Elen, alter_length, alter_lookup. case_decide; [|by apply A5].
      intros (b0 & Hb & ->)%fmap_Some. apply (A5 j b0 Hb).
    - intros j b. rewrite Es, alter_lookup. case_decide; [|by apply A6].
      intros (b0 & Hb & ->)%fmap_Some. cbn. intros. exfalso. auto.
    - intros m n Hm. assert (c_reg x !! m = Some n) as Hm0.
      { rewrite Er in Hm. destruct (reaps a x) as [[m' p]|]; [|done]. by apply lookup_delete_Some in Hm as [_ ?]. }
      destruct (A7 m n Hm0) as (np & Hn & <-). rewrite En, alter_lookup. case_decide; [subst|eauto]. rewrite Hn. cbn. eauto.
    - rewrite Er. unfold reaps. destruct (c_nsps x !! sk_nsp a) as [np|] eqn:Enp; [|done].
      destruct (np_parent np) eqn:Ep; [|done]. destruct (clean && _); [|done].
      rewrite lookup_delete_ne; [done|]. eapply A9; done.
    - intros n np p. rewrite En, alter_lookup. case_decide; [|eauto]. intros (np0 & Hnp & ->)%fmap_Some. cbn. eauto.
  Qed.
  Lemma invA_close os reason k a s : sords_ok os → c_socks s.1 !! k = Some a → sk_connected a = true →
    invA s.1 → invA (onclose os reason k s).1.
  Proof.
    intros Hos E Ec A. eapply (invA_drop os k a false); try done.
    - by rewrite (onclose_socks os reason k a).
    - by rewrite (onclose_nsps os reason k a).
    - intros c i j. rewrite (onclose_csocks os reason k a) by done. case_decide as Hc.
      + intros [Hn Hj]%lookup_delete_Some. split; [done|]. intros ->. destruct (ia_csock _ A _ _ _ Hj) as (b & Hb & Hi & _). congruence.
      + intros Hj. split; [done|]. intros ->. destruct (ia_csock _ A _ _ _ Hj) as (b & Hb & Hi & Hcl & _). congruence.
    - apply onclose_clients_length.
    - by rewrite (onclose_reg os reason k a).
  Qed.
  Lemma invA_refuse os k a s : sords_ok os → c_socks s.1 !! k = Some a → sk_connected a = false →
    invA s.1 → invA (cleanup os k s).1.
  Proof.
    intros Hos E Ec A. eapply (invA_drop os k a false).
    - done. - exact A. - done. - done.
    - rewrite cleanup_socks. apply list_eq. intros j. rewrite !alter_lookup. case_decide; [subst|done]. rewrite E. cbn. by rewrite Ec.
    - by rewrite (cleanup_nsps os k a).
    - intros c i j. unfold csocks_of. rewrite cleanup_clients. intros Hj. split; [done|]. intros ->.
      destruct (ia_csock _ A _ _ _ Hj) as (b & Hb & _ & _ & ?). congruence.
    - by rewrite cleanup_clients.
    - by rewrite (cleanup_reg os k a).
  Qed.
  Lemma invA_connect k a s : c_socks s.1 !! k = Some a → sk_can_join a = true → is_open s.1 (sk_client a) = true →
    invA s.1 → invA (do_connect k s).1.
  Proof.
    intros E Ej Eo A. rewrite (do_connect_eq k a) by done. cbn [fst]. destruct A as [A1 A2 A3 A4 A5 A6 A7 A8 A9].
    destruct (A5 k a E) as [Hn Hc]. apply lookup_lt_is_Some in Hn as [np Hn]. apply lookup_lt_is_Some in Hc as [cl Hc].
    assert (∀ j b, c_socks s.1 !! j = Some b → ∃ b', c_socks (conn2 a k s.1) !! j = Some b' ∧ sk_id b' = sk_id b ∧ sk_nsp b' = sk_nsp b ∧
      sk_client b' = sk_client b ∧ (sk_connected b = true → sk_connected b' = true) ∧ (sk_can_join b = true → sk_can_join b' = true)) as Hk.
    { intros j b Hb. cbn. rewrite alter_lookup. case_decide; [subst; rewrite E in *; injection Hb as <-|]; eauto 10. }
    assert (c_socks (conn2 a k s.1) !! k = Some (sk_set true true a)) as Hkk by (cbn; by rewrite list_lookup_alter, E).
    assert (∀ n, socks_of (conn2 a k s.1) n = if decide (n = sk_nsp a) then <[sk_id a := k]> (socks_of s.1 n) else socks_of s.1 n) as Hs.
    { intros n. unfold socks_of. cbn. rewrite alter_lookup. case_decide; [subst|done]. by rewrite Hn. }
    assert (∀ n, reg_of (conn2 a k s.1) n = if decide (n = sk_nsp a) then (add_all (sk_id a) (remove_dups [sk_id a]) (reg_of s.1 n)).1 else reg_of s.1 n) as Hr.
    { intros n. unfold reg_of. cbn -[remove_dups]. rewrite alter_lookup. case_decide; [subst|done]. by rewrite Hn. }
    assert (∀ c, csocks_of (conn2 a k s.1) c = if decide (c = sk_client a) then <[sk_id a := k]> (csocks_of s.1 c) else csocks_of s.1 c) as Hcs.
    { intros c. unfold csocks_of. cbn. rewrite alter_lookup. case_decide; [subst|done]. by rewrite Hc. }
    split.
    - intros n i j. rewrite Hs. intros Hj.
      assert ((n = sk_nsp a ∧ i = sk_id a ∧ j = k) ∨ socks_of s.1 n !! i = Some j) as [(-> & -> & ->)|H].
      { case_decide; [|by right]. apply lookup_insert_Some in Hj as [[<- <-]|[_ ?]]; [left|right]; done. }
      + eexists. split; [exact Hkk|]. done.
      + destruct (A1 _ _ _ H) as (b & Hb & <- & <- & Hcn). destruct (Hk j b Hb) as (b' & ? & ? & ? & ? & Hcc & ?). exists b'. auto.
    - intros n i j. rewrite Hcs. intros Hj.
      assert ((n = sk_client a ∧ i = sk_id a ∧ j = k) ∨ csocks_of s.1 n !! i = Some j) as [(-> & -> & ->)|H].
      { case_decide; [|by right]. apply lookup_insert_Some in Hj as [[<- <-]|[_ ?]]; [left|right]; done. }
      + eexists. split; [exact Hkk|]. done.
      + destruct (A2 _ _ _ H) as (b & Hb & <- & <- & Hcn). destruct (Hk j b Hb) as (b' & ? & ? & ? & ? & Hcc & ?). exists b'. auto.
    - intros n. rewrite Hr. case_decide; [|done]. by apply add_all_inv.
    - intros n i. rewrite Hr. intros Hi.
      assert ((n = sk_nsp a ∧ i = sk_id a) ∨ is_Some (rg_sids (reg_of s.1 n) !! i)) as [[-> ->]|H].
      { case_decide; [|by right]. rewrite add_all_known in Hi. destruct Hi; [by right|by left]. }
      + exists k. eexists. split; [exact Hkk|]. done.
      + destruct (A4 _ _ H) as (j & b & Hb & <- & <- & Hcn). destruct (Hk j b Hb) as (b' & ? & Hid & Hnp & ? & ? & ?). exists j, b'. auto.
    - intros j b. cbn. rewrite !alter_length, alter_lookup. case_decide; [|by apply A5].
      intros (b0 & Hb & ->)%fmap_Some. apply (A5 j b0 Hb).
    - intros j b. cbn. rewrite alter_lookup. case_decide; [|by apply A6]. intros (b0 & Hb & ->)%fmap_Some. done.
    - intros m n Hm. destruct (A7 m n Hm) as (np' & Hnp & <-). cbn. rewrite alter_lookup. case_decide; [subst|eauto]. rewrite Hnp. cbn. eauto.
    - done.
    - intros n np' p. cbn. rewrite alter_lookup. case_decide; [|eauto]. intros (np0 & Hnp & ->)%fmap_Some. cbn. eauto.
  Qed.
  Lemma invA_new np y (s : sys) : invA s.1 → np_reg np = empty_registry → np_sockets np = ∅ → np_name np ≠ "/" →
    c_socks y = c_socks s.1 → c_clients y = c_clients s.1 → c_nsps y = c_nsps s.1 ++ [np] →
    c_reg y = <[np_name np := length (c_nsps s.1)]> (c_reg s.1) → invA y.
  Proof.
    intros [A1 A2 A3 A4 A5 A6 A7 A8 A9] Hr Hs Hroot E1 E2 E3 E4.
    assert (∀ n, socks_of y n = socks_of s.1 n) as Es.
    { intros n. unfold socks_of. rewrite E3. destruct (decide (n < length (c_nsps s.1))); [by rewrite lookup_app_l|].
      rewrite lookup_app_r by lia. rewrite (lookup_ge_None_2 (c_nsps s.1)) by lia.
      destruct (n - length (c_nsps s.1)) as [|[]]; cbn; done. }
    assert (∀ n, reg_of y n = reg_of s.1 n) as Erg.
    { intros n. unfold reg_of. rewrite E3. destruct (decide (n < length (c_nsps s.1))); [by rewrite lookup_app_l|].
      rewrite lookup_app_r by lia. rewrite (lookup_ge_None_2 (c_nsps s.1)) by lia.
      destruct (n - length (c_nsps s.1)) as [|[]]; cbn; done. }
    assert (∀ n, csocks_of y n = csocks_of s.1 n) as Ecs.
    { intros n. unfold csocks_of. by rewrite E2. }
    split.
    - intros n i k. rewrite Es, E1. apply A1.
    - intros n i k. rewrite Ecs, E1. apply A2.
    - intros n. by rewrite Erg.
    - intros n i. rewrite Erg. setoid_rewrite E1. apply A4.
    - intros k a. rewrite E1, E2, E3, app_length. cbn. intros H%A5. lia.
    - intros k a. rewrite E1. apply A6.
    - intros m n. rewrite E4, E3. intros [[<- <-]|[_ H]]%lookup_insert_Some.
      + exists np. split; [|done]. by rewrite lookup_app_r, Nat.sub_diag.
      + destruct (A7 m n H) as (np' & ? & ?). exists np'. split; [|done]. by apply lookup_app_l_Some.
    - rewrite E4, lookup_insert_ne by done. done.
    - intros n np' p. rewrite E3. intros [H|[_ H]]%lookup_app_Some; [by eauto|].
      apply list_lookup_singleton_Some in H as [_ <-]. done.
  Qed.
  Lemma invA_cprim s s' : cprim s s' → invA s.1 → invA s'.1.
  Proof.
    intros P A. destruct P.
    - done.
    - done.
    - done.
    - by apply invA_set_client.
    - by apply invA_set_client.
    - revert A. by apply invA_ext.
    - by eapply invA_close.
  Qed.
  Lemma invA_prim s s' : prim s s' → invA s.1 → invA s'.1.
  Proof.
    intros P A. destruct P.
    - by eapply invA_cprim.
    - revert A. apply invA_ext; try done; cbn.
      + intros c. unfold csocks_of. cbn. destruct (decide (c < length (c_clients s.1))); [by rewrite lookup_app_l|].
        rewrite lookup_app_r by lia. rewrite (lookup_ge_None_2 (c_clients s.1)) by lia.
        destruct (c - length (c_clients s.1)) as [|[]]; done.
      + rewrite app_length. lia.
    - revert A. by apply invA_ext.
    - by apply invA_join.
    - by apply invA_leave.
    - by apply invA_create.
    - by eapply invA_connect.
    - by eapply invA_refuse.
    - by eapply (invA_new (Nspc name None empty_registry ∅ [] [])).
    - unfold create_child. rewrite H1. eapply (invA_new (Nspc name (Some p) empty_registry ∅ (pa_on q) (pa_fns q))); try done.
      cbn. intros ->. by rewrite (ia_root _ A) in H0.
    - revert A. by apply invA_ext.
    - by apply invA_set_nsp.
    - by apply invA_set_nsp.
    - revert A. by apply invA_ext.
    - revert A. by apply invA_ext.
  Qed.
  Lemma invA_crtc s s' : rtc cprim s s' → invA s.1 → invA s'.1.
  Proof. induction 1; eauto using invA_cprim. Qed.
  Lemma invA_rtc s s' : rtc prim s s' → invA s.1 → invA s'.1.
  Proof. induction 1; eauto using invA_prim. Qed.
  Lemma invA_init : invA (init).1.
  Proof.
    split; cbn.
    - intros [|[]] i k; by cbn.
    - intros c i k; by cbn.
    - intros [|[]]; apply empty_inv.
    - intros [|[]] i [? H]; by vm_compute in H.
    - done. - done.
    - intros m n. destruct (decide (m = "/")) as [->|]; [|by rewrite lookup_singleton_ne].
      rewrite lookup_singleton. intros [= <-]. by eexists.
    - done.
    - intros [|[]] np p; cbn; naive_solver.
  Qed.

  (** ** Every step is a sequence of elementary transitions *)
  Notation disconnect := (disconnect csr clean).
  Section goodness.
    Context (R : sys → sys → Prop) (HR : ∀ s s', R s s' → invA s.1 → invA s'.1).
    Definition goodR (f : sys → sys) : Prop := ∀ s, invA s.1 → rtc R s (f s).
    Lemma goodR_inv s s' : rtc R s s' → invA s.1 → invA s'.1.
    Proof. induction 1; eauto. Qed.
    Lemma goodR_comp f g : goodR f → goodR g → goodR (λ s, g (f s)).
    Proof. intros Hf Hg s A. etrans; [by apply Hf|]. apply Hg. eapply goodR_inv; [by apply Hf|done]. Qed.
    Lemma goodR_foldl {A} (f : sys → A → sys) l : (∀ x, goodR (λ s, f s x)) → goodR (λ s, foldl f s l).
    Proof.
      intros H. induction l as [|x l IH]; [by intros s A'|]. cbn.
      apply (goodR_comp (λ s, f s x) (λ s, foldl f s l)); [apply H|exact IH].
    Qed.
    Lemma run_cbsR n cb l : (∀ k, goodR (cb k)) → goodR (run_cbs (λ s : sys, socks_of s.1 n) cb l).
    Proof.
      intros Hcb. induction l as [|i l IH]; intros s A; [done|]. cbn [run_cbs].
      assert (rtc R s (match socks_of s.1 n !! i with Some a => cb a s | None => s end)) as H.
      { destruct (socks_of s.1 n !! i); [by apply Hcb|done]. }
      etrans; [exact H|]. apply IH. by eapply goodR_inv.
    Qed.
    Lemma apply_goodR os n cb opts : (∀ k, goodR (cb k)) → goodR (apply_nsp os n cb opts).
    Proof. intros Hcb s A. unfold apply_nsp. rewrite apply_cbs. by apply run_cbsR. Qed.
  End goodness.
  Notation good := (goodR prim).
  Notation cgood := (goodR cprim).
  Definition good_comp := goodR_comp prim invA_prim.
  Definition cgood_comp := goodR_comp cprim invA_cprim.
  Definition good_foldl {A} := @goodR_foldl prim invA_prim A.
  Definition cgood_foldl {A} := @goodR_foldl cprim invA_cprim A.
  Definition apply_good := apply_goodR prim invA_prim.
  Definition apply_cgood := apply_goodR cprim invA_cprim.
  Lemma cgood_good f : cgood f → good f.
  Proof. intros H s A. by apply rtc_c, H. Qed.
  Lemma good_prim f : (∀ s, prim s (f s)) → good f.
  Proof. intros H s _. by apply rtc_once. Qed.
  Lemma write_prims c p s : p_type p ≠ CONNECT → rtc cprim s (write c p s).
  Proof. intros. unfold write. destruct (is_open s.1 c); [|done]. by apply rtc_once, pr_note. Qed.
  Lemma sock_packet_prims k ty d s : ty ≠ CONNECT → rtc cprim s (sock_packet k ty d s).
  Proof. intros. unfold sock_packet. destruct (c_socks s.1 !! k); [|done]. by apply write_prims. Qed.
  Lemma write_core c p s : (write c p s).1 = s.1.
  Proof. unfold write. by destruct (is_open s.1 c). Qed.
  Lemma sock_packet_core k ty d s : (sock_packet k ty d s).1 = s.1.
  Proof. unfold sock_packet. destruct (c_socks s.1 !! k); [|done]. apply write_core. Qed.
  Lemma onclose_prims os reason k s : (∀ a, c_socks s.1 !! k = Some a → Q (Some reason) a) → sords_ok os → rtc cprim s (onclose os reason k s).
  Proof.
    intros HQ Hos. destruct (c_socks s.1 !! k) as [a|] eqn:E; [destruct (sk_connected a) eqn:Ec|].
    - apply rtc_once. apply (pr_close os reason k a); auto.
    - unfold System.onclose. by rewrite E, Ec.
    - unfold System.onclose. by rewrite E.
  Qed.
  Lemma disconnect_prims os k s : (∀ a, c_socks s.1 !! k = Some a → Q (Some "server namespace disconnect") a) → sords_ok os → rtc cprim s (disconnect os k s).
  Proof.
    intros HQ Hos. unfold System.disconnect. destruct (c_socks s.1 !! k) as [a|] eqn:E; [|done]. destruct (sk_connected a); [|done].
    transitivity (sock_packet k DISCONNECT [] s); [by apply sock_packet_prims|apply onclose_prims; [|done]].
    rewrite sock_packet_core, E. by intros ? [= <-]; apply HQ.
  Qed.

  (** A function that closes the socket of client [c0] it is given. *)
  Definition closing (c0 : nat) (f : nat → sys → sys) : Prop := ∀ k a s, c_socks s.1 !! k = Some a → sk_client a = c0 → rtc cprim s (f k s) ∧
    (sk_connected a = true → ∀ c, csocks_of (f k s).1 c = if decide (c = sk_client a) then delete (sk_id a) (csocks_of s.1 c) else csocks_of s.1 c).
  Lemma onclose_closing os reason c0 : (∀ a, sk_client a = c0 → Q (Some reason) a) → sords_ok os → closing c0 (onclose os reason).
  Proof.
    intros HQ Hos k a s E Ea. split; [|intros Ec c; by apply onclose_csocks]. apply onclose_prims; [|done].
    rewrite E. intros ? [= <-]. by apply HQ.
  Qed.
  Lemma disconnect_closing os c0 : (∀ a, sk_client a = c0 → Q (Some "server namespace disconnect") a) → sords_ok os → closing c0 (disconnect os).
  Proof.
    intros HQ Hos k a s E Ea. split; [apply disconnect_prims; [|done]; rewrite E; intros ? [= <-]; by apply HQ|]. intros Ec c. unfold System.disconnect. rewrite E, Ec.
    rewrite (onclose_csocks _ _ _ a) by (rewrite ?sock_packet_core; done). by rewrite sock_packet_core.
  Qed.
  Lemma range_loop f c l s : closing c f → invA s.1 →
    let s' := foldl (λ s i, match csocks_of s.1 c !! i with Some k => f k s | None => s end) s l in
    rtc cprim s s' ∧ ∀ i k, csocks_of s'.1 c !! i = Some k → csocks_of s.1 c !! i = Some k ∧ i ∉ l.
  Proof.
    intros Hf. revert s. induction l as [|i l IH]; intros s A; cbn [foldl]; cbv zeta.
    - split; [done|]. intros i k H. split; [done|apply not_elem_of_nil].
    - destruct (csocks_of s.1 c !! i) as [k|] eqn:Ei.
      + destruct (ia_csock _ A _ _ _ Ei) as (a & Ek & Eid & Ecl & Ecn). destruct (Hf k a s Ek Ecl) as [H1 H2].
        specialize (H2 Ecn c). rewrite decide_True in H2 by done.
        destruct (IH (f k s) (invA_crtc _ _ H1 A)) as [I1 I2]. split; [by etrans|].
        intros i' k' H. apply I2 in H as [H Hn]. rewrite H2 in H. apply lookup_delete_Some in H as [Hne H].
        split; [done|]. rewrite not_elem_of_cons. split; [congruence|done].
      + destruct (IH s A) as [I1 I2]. split; [done|]. intros i' k' H. apply I2 in H as [H Hn]. split; [done|].
        rewrite not_elem_of_cons. split; [congruence|done].
  Qed.
  Lemma range_close f os c s : sords_ok os → closing c f → invA s.1 →
    rtc cprim s (range_client os c f s) ∧ csocks_of (range_client os c f s).1 c = ∅.
  Proof.
    intros Hos Hf A. destruct (range_loop f c (so_client os c (dom (csocks_of s.1 c))) s Hf A) as [H1 H2]. split; [done|].
    apply map_empty. intros i. destruct (csocks_of (range_client os c f s).1 c !! i) as [k|] eqn:E; [|done]. exfalso.
    apply H2 in E as [E Hn]. apply Hn. apply order_elem; [apply Hos|]. apply elem_of_dom. by eexists.
  Qed.
  Lemma clear_empty c s : csocks_of s.1 c = ∅ → upd_client c (λ cl, cl_set_tables ∅ (cl_nsps cl) cl) s = s.
  Proof.
    intros H. destruct s as [x l]. unfold upd_client, on_core. cbn in *. f_equal. destruct x as [a b cs d e f]. unfold set_clients. cbn in *.
    f_equal. apply list_eq. intros j. rewrite alter_lookup. case_decide; [subst|done]. unfold csocks_of in H. cbn in H.
    destruct (cs !! c) as [[]|]; cbn in *; [|done]. by subst.
  Qed.
  Notation client_onclose := (client_onclose csr clean).
  Notation client_close := (client_close csr clean).
  Notation client_disconnect := (client_disconnect csr clean).
  Lemma client_onclose_eq os c reason s : (∀ a, sk_client a = c → Q (Some reason) a) → sords_ok os → invA s.1 →
    client_onclose os c reason s = range_client os c (onclose os reason) (upd_client c cl_no_timer s).
  Proof.
    intros HQ Hos A. unfold System.client_onclose. apply clear_empty.
    apply range_close; [done|by apply onclose_closing|by apply invA_set_client].
  Qed.
  Lemma client_onclose_good os c reason s : (∀ a, sk_client a = c → Q (Some reason) a) → sords_ok os → is_open s.1 c = false → invA s.1 →
    rtc cprim s (client_onclose os c reason s).
  Proof.
    intros HQ Hos Ho A. rewrite client_onclose_eq by done. eapply rtc_l; [by apply pr_timer|].
    apply range_close; [done|by apply onclose_closing|by apply invA_set_client].
  Qed.
  Lemma shut_closed c s : is_open (upd_client c cl_shut s).1 c = false.
  Proof. unfold is_open, upd_client, on_core. cbn. rewrite list_lookup_alter. by destruct (c_clients s.1 !! c). Qed.
  Lemma hangup_good c : cgood (hangup c).
  Proof. intros s A. unfold hangup. eapply rtc_l; [by apply (pr_note (EHangup c))|]. apply rtc_once, pr_shut. Qed.
  Lemma client_close_good os c : (∀ a, sk_client a = c → Q (Some "forced server close") a) → sords_ok os → cgood (client_close os c).
  Proof.
    intros HQ Hos s A. unfold System.client_close. destruct (is_open s.1 c); [|done].
    etrans; [by apply hangup_good|]. apply client_onclose_good; [done|done|apply shut_closed|]. eapply invA_crtc; [by apply hangup_good|done].
  Qed.
  Lemma client_disconnect_eq os c s : (∀ a, sk_client a = c → Q (Some "server namespace disconnect") a) → sords_ok os → invA s.1 →
    client_disconnect os c s = client_close os c (range_client os c (disconnect os) s).
  Proof.
    intros HQ Hos A. unfold System.client_disconnect. rewrite clear_empty; [done|].
    apply range_close; [done|by apply disconnect_closing|done].
  Qed.
  Lemma client_close_empty os c s : sords_ok os → csocks_of s.1 c = ∅ → rtc cprim s (client_close os c s).
  Proof.
    intros Hos Hc. unfold System.client_close. destruct (is_open s.1 c); [|done]. unfold System.client_onclose.
    assert (csocks_of (upd_client c cl_no_timer (hangup c s)).1 c = ∅) as Hc2.
    { rewrite <- Hc. unfold hangup, upd_client, on_core, log. cbn. unfold csocks_of. cbn. rewrite !list_lookup_alter. by destruct (c_clients s.1 !! c). }
    assert (range_client os c (onclose os "forced server close") (upd_client c cl_no_timer (hangup c s)) = upd_client c cl_no_timer (hangup c s)) as ->.
    { unfold range_client. rewrite Hc2, dom_empty_L. destruct Hos as (_ & Hcl & _). specialize (Hcl c ∅).
      rewrite elements_empty in Hcl. symmetry in Hcl. apply Permutation_nil in Hcl. by rewrite Hcl. }
    rewrite clear_empty by done. etrans; [apply rtc_once, (pr_note (EHangup c)); done|]. etrans; [apply rtc_once, (pr_shut c)|].
    apply rtc_once, (pr_timer c), shut_closed.
  Qed.
  Lemma client_disconnect_good os c : (∀ a, sk_client a = c → Q (Some "server namespace disconnect") a) →
    sords_ok os → cgood (client_disconnect os c).
  Proof.
    intros HQ Hos s A. rewrite client_disconnect_eq by done.
    destruct (range_close (disconnect os) os c s) as [H He]; [done|by apply disconnect_closing|done|].
    etrans; [exact H|]. by apply client_close_empty.
  Qed.
  Lemma disconnect_st_good os st k : (∀ r a, Q (Some r) a) → sords_ok os → cgood (disconnect_st csr clean os st k).
  Proof.
    intros HQ Hos s A. unfold disconnect_st. destruct (c_socks s.1 !! k) as [a|]; [|done]. destruct (sk_connected a); [|done].
    destruct st; [apply client_disconnect_good|apply disconnect_prims]; auto.
  Qed.
  Lemma shutdown_good os : (∀ a, Q (Some "server shutting down") a) → sords_ok os → cgood (shutdown csr clean os).
  Proof.
    intros HQ Hos s A. unfold shutdown. generalize (so_nsps os (dom (c_reg s.1))). intros l. revert s A.
    apply cgood_foldl. intros m s A. destruct (c_reg s.1 !! m) as [n|]; [|done].
    generalize (so_nsock os m (dom (socks_of s.1 n))). intros l'. revert s A.
    apply cgood_foldl. intros i s A. destruct (socks_of s.1 n !! i); [|done]. apply onclose_prims; auto.
  Qed.
  Lemma onerror_good os c : cgood (client_onerror os c).
  Proof.
    intros s A. unfold client_onerror. apply (cgood_comp (range_client os c (λ k s, log (EErr k) s)) (hangup c)); [|apply hangup_good|done].
    clear s A. intros s A. unfold range_client. generalize (so_client os c (dom (csocks_of s.1 c))). intros l. revert s A. apply cgood_foldl.
    intros i s A. destruct (csocks_of s.1 c !! i); [|done]. by apply rtc_once, (pr_note (EErr _)).
  Qed.
  Lemma onpacket_good os k p : (∀ o a, Q o a) → sords_ok os → cgood (onpacket csr clean os k p).
  Proof.
    set (dummy := Sock "" 0 0 false false false). intros HQ Hos s A. unfold onpacket. destruct (p_type p).
    - done.
    - apply onclose_prims; auto.
    - eapply rtc_l; [by apply (pr_in (EAny k p) dummy)|]. cbn. destruct (c_socks s.1 !! k) as [a|] eqn:E; [|done].
      destruct (sk_connected a) eqn:Ec; [|done]. eapply rtc_once, pr_dispatch; eauto.
    - by apply rtc_once, (pr_in (EAck k p) dummy).
    - done.
    - eapply rtc_l; [by apply (pr_in (EAny k p) dummy)|]. cbn. destruct (c_socks s.1 !! k) as [a|] eqn:E; [|done].
      destruct (sk_connected a) eqn:Ec; [|done]. eapply rtc_once, pr_dispatch; eauto.
    - by apply rtc_once, (pr_in (EAck k p) dummy).
  Qed.
  Lemma put_good p k : p_type p ≠ CONNECT → cgood (put p k).
  Proof. intros Hp s A. unfold put. destruct (c_socks s.1 !! k); [|done]. by apply rtc_once, pr_note. Qed.
  Lemma broadcast_good os n data opts : cgood (broadcast os n EVENT data opts).
  Proof. intros s. unfold broadcast. apply apply_cgood. intros k. by apply put_good. Qed.
  Lemma parent_broadcast_good os p data off opts : cgood (parent_broadcast csr os p data off opts).
  Proof.
    intros s. unfold parent_broadcast. destruct (c_parents s.1 !! p) as [q|]; [|done].
    generalize (so_children os (pa_children q)). intros l. revert s data. induction l as [|n l IH]; intros s data A; [done|]. cbn.
    etrans; [by apply broadcast_good|]. apply IH. eapply invA_crtc; [by apply broadcast_good|done].
  Qed.
  Lemma parent_emit_good os p data off : cgood (parent_emit csr os p data off).
  Proof.
    intros s A. unfold parent_emit. destruct (c_parents s.1 !! p) as [q|]; [|done]. revert s A.
    apply cgood_foldl. intros n. apply broadcast_good.
  Qed.
  Lemma emit_good os k data off : cgood (emit csr os k data off).
  Proof.
    intros s A. unfold emit. destruct (c_socks s.1 !! k); [|done]. destruct csr; [by apply broadcast_good|by apply sock_packet_prims].
  Qed.
  Lemma join_good k rs : good (join k rs).
  Proof. apply good_prim. intros s. apply pr_join. Qed.
  Lemma leave_good k r : good (leave k r).
  Proof. apply good_prim. intros s. apply pr_leave. Qed.

  (** Namespaces. *)
  Lemma first_match_Some os x name p : sords_ok os → first_match os x name = Some p →
    regex_matches x name p = true ∧ is_Some (c_parents x !! p).
  Proof.
    intros Hos H. unfold first_match in H. apply head_Some_elem_of in H. apply elem_of_list_filter in H as [H1 H2].
    split; [by apply Is_true_true|]. apply lookup_lt_is_Some. destruct Hos as (_ & _ & _ & _ & Hp & _).
    rewrite (Hp (seq 0 (length (c_parents x)))) in H2. apply elem_of_seq in H2. lia.
  Qed.
  Lemma listen_good name fn : good (λ s, match fn with
      Some f => match c_reg s.1 !! name with Some n => upd_nsp n (np_add_on f) s | None => s end | None => s end).
  Proof. intros s A. destruct fn; [|done]. destruct (c_reg s.1 !! name); [|done]. apply rtc_once, pr_on. Qed.
  Lemma of_name_prims os raw fn s : (c_reg s.1 !! norm raw = None → D (BNsp (norm raw))) → sords_ok os → invA s.1 → rtc prim s (of_name os raw fn s).
  Proof.
    intros HD Hos A. unfold of_name. destruct (c_reg s.1 !! norm raw) as [n|] eqn:E; [destruct fn; [apply rtc_once, pr_on|done]|].
    destruct (first_match os s.1 (norm raw)) as [p|] eqn:Ef.
    - destruct (first_match_Some _ _ _ _ Hos Ef) as [_ [q Hq]]. eapply rtc_once, pr_child; [auto|done..].
    - assert (norm raw ≠ "/") as Hr by (intros Hr; rewrite Hr, (ia_root _ A) in E; done).
      rewrite decide_False by done. etrans; [apply rtc_once, pr_nsp; auto|].
      refine (listen_good (norm raw) fn _ _). eapply invA_prim; [apply pr_nsp; auto|done].
  Qed.
  (** What may change in the fields of a socket. *)
  Record later (a b : sock) : Prop := {
    la_id : sk_id b = sk_id a; la_nsp : sk_nsp b = sk_nsp a; la_client : sk_client b = sk_client a;
    la_rec : sk_recovered b = sk_recovered a;
    la_open : sk_can_join b = true → sk_can_join a = true;
    la_dead : sk_connected a = false → sk_can_join a = false → b = a
  }.
  Lemma later_refl a : later a a.
  Proof. by split. Qed.
  Lemma later_trans a b c : later a b → later b c → later a c.
  Proof.
    intros [A1 A2 A3 A4 A5 A6] [B1 B2 B3 B4 B5 B6]. split; try congruence; [by auto|].
    intros H1 H2. pose proof (A6 H1 H2) as ->. auto.
  Qed.
  Definition grows (l l' : list sock) : Prop := ∀ k a, l !! k = Some a → ∃ b, l' !! k = Some b ∧ later a b.
  Lemma grows_refl l : grows l l.
  Proof. intros k a H. exists a. by split; [|apply later_refl]. Qed.
  Lemma grows_trans l1 l2 l3 : grows l1 l2 → grows l2 l3 → grows l1 l3.
  Proof. intros H1 H2 k a (b & Hb & L1)%H1. destruct (H2 k b Hb) as (c & Hc & L2). exists c. split; [done|by eapply later_trans]. Qed.
  Lemma grows_alter f k a l : l !! k = Some a → later a (f a) → grows l (alter f k l).
  Proof.
    intros H L j b Hj. rewrite alter_lookup. case_decide; [subst|by exists b; split; [|apply later_refl]].
    rewrite Hj. rewrite Hj in H. injection H as ->. cbn. eauto.
  Qed.
  Lemma join_socks k rs s : c_socks (join k rs s).1 = c_socks s.1.
  Proof. unfold join. destruct (c_socks s.1 !! k) as [b|]; [|done]. by destruct (sk_can_join b). Qed.
  Lemma leave_socks k r s : c_socks (leave k r s).1 = c_socks s.1.
  Proof. unfold leave. by destruct (c_socks s.1 !! k) as [b|]. Qed.
  Lemma create_child_socks p m s : c_socks (create_child p m s).1 = c_socks s.1.
  Proof. unfold create_child. by destruct (c_parents s.1 !! p). Qed.
  Lemma prim_socks s s' : prim s s' → grows (c_socks s.1) (c_socks s'.1).
  Proof.
    intros P. destruct P; rewrite ?join_socks, ?leave_socks, ?create_child_socks; try apply grows_refl.
    - destruct H; try apply grows_refl. rewrite (onclose_socks _ _ _ a) by done. eapply grows_alter; [done|]. split; try done.
      intros. congruence.
    - intros k b Hk. exists b. split; [by apply lookup_app_l_Some|apply later_refl].
    - rewrite (do_connect_eq _ a) by done. cbn. eapply grows_alter; [done|]. split; try done. intros. congruence.
    - rewrite cleanup_socks. eapply grows_alter; [done|]. split; try done. intros. congruence.
  Qed.
  Lemma rtc_socks s s' : rtc prim s s' → grows (c_socks s.1) (c_socks s'.1).
  Proof. induction 1; [apply grows_refl|]. eapply grows_trans; [by apply prim_socks|done]. Qed.

  (** The socket created between two states. *)
  Definition created (s s' : sys) (a : sock) : Prop :=
    ∃ a', c_socks s'.1 !! length (c_socks s.1) = Some a' ∧ sk_id a' = sk_id a ∧ sk_nsp a' = sk_nsp a ∧ sk_client a' = sk_client a.
  Lemma created_grows s s1 s2 a : created s s1 a → grows (c_socks s1.1) (c_socks s2.1) → created s s2 a.
  Proof. intros (a' & H & E1 & E2 & E3) Hg. destruct (Hg _ _ H) as (b & Hb & L). exists b. destruct L. split_and!; congruence. Qed.
  Definition new_id (c n : nat) (x : arrival) (s : sys) : sid :=
    match (if csr then x_prev x else None) with
    | Some (i, _, _) => i
    | None => match c_clients s.1 !! c with
              | Some cl => if cl_p3 cl then if decide (name_of s.1 n = "/") then cl_id cl else name_of s.1 n +:+ "#" +:+ cl_id cl else x_id x
              | None => x_id x
              end
    end.
  Lemma create_socket_socks c n x s : ∃ a, c_socks (create_socket csr c n x s).1 = c_socks s.1 ++ [a] ∧
    sk_connected a = false ∧ sk_can_join a = true ∧ sk_nsp a = n ∧ sk_client a = c ∧
    c_clients (create_socket csr c n x s).1 = c_clients s.1 ∧
    sk_recovered a = csr && bool_decide (is_Some (x_prev x)) ∧ sk_id a = new_id c n x s.
  Proof.
    assert (∀ (l : list (list value)) k s, (foldl (λ s d, sock_packet k EVENT d s) s l).1 = s.1) as H1.
    { intros l. induction l as [|d l IH]; intros k s0; [done|]. cbn. by rewrite IH, sock_packet_core. }
    assert (∀ k rs s, c_socks (join k rs s).1 = c_socks s.1 ∧ c_clients (join k rs s).1 = c_clients s.1) as H2.
    { intros k rs s0. unfold join. destruct (c_socks s0.1 !! k) as [b|]; [|done]. by destruct (sk_can_join b). }
    assert (∀ (l : list room) k s, c_socks (foldl (λ s r, join k [r] s) s l).1 = c_socks s.1 ∧ c_clients (foldl (λ s r, join k [r] s) s l).1 = c_clients s.1) as H3.
    { intros l. induction l as [|d l IH]; intros k s0; [done|]. cbn. destruct (IH k (join k [d] s0)) as [-> ->]. apply H2. }
    unfold create_socket, new_id. destruct csr; [destruct (x_prev x) as [[[i rs] missed]|]|]; cbn.
    - rewrite H1. destruct (H3 rs (length (c_socks s.1)) (on_core (λ y, set_socks (c_socks y ++ [Sock i n c false true true]) y) s)) as [-> ->].
      cbn. eexists. split_and!; done.
    - eexists. split_and!; done.
    - eexists. split_and!; done.
  Qed.
  Lemma create_socket_created c n x s a : sk_id a = new_id c n x s → sk_nsp a = n → sk_client a = c → created s (create_socket csr c n x s) a.
  Proof.
    intros E1 E2 E3. destruct (create_socket_socks c n x s) as (b & Eb & _ & _ & E4 & E5 & _ & _ & E6).
    exists b. rewrite Eb, lookup_app_r, Nat.sub_diag by done. split_and!; [done|congruence..].
  Qed.
  Lemma create_socket_prims c n x s : (∀ a, created s (create_socket csr c n x s) a → C (length (c_socks s.1)) a) →
    n < length (c_nsps s.1) → c < length (c_clients s.1) → invA s.1 → rtc prim s (create_socket csr c n x s).
  Proof.
    intros HC Hn Hc A.
    assert (∀ a, sk_id a = new_id c n x s → sk_nsp a = n → sk_client a = c → C (length (c_socks s.1)) a) as HC'.
    { intros. by apply HC, create_socket_created. }
    clear HC. unfold create_socket, new_id in *. destruct (if csr then x_prev x else None) as [[[i rs] missed]|].
    - assert (prim s (on_core (λ y, set_socks (c_socks y ++ [Sock i n c false true true]) y) s)) as Hp.
      { apply (pr_create (Sock i n c false true true)); try done. by apply HC'. }
      etrans; [by apply rtc_once|]. apply invA_prim in Hp; [|done]. revert Hp.
      generalize (length (c_socks s.1)). intros k.
      generalize (on_core (λ y, set_socks (c_socks y ++ [Sock i n c false true true]) y) s).
      apply (good_comp (λ s, foldl (λ s r, join k [r] s) s rs) (λ s, foldl (λ s d, sock_packet k EVENT d s) s missed)).
      + apply good_foldl. intros r. apply join_good.
      + apply good_foldl. intros d s1 A1. by apply rtc_c, sock_packet_prims.
    - apply rtc_once, (pr_create (Sock _ n c false true false)); try done. by apply HC'.
  Qed.
  Lemma is_open_lt x c : is_open x c = true → c < length (c_clients x).
  Proof. unfold is_open. destruct (c_clients x !! c) eqn:E; [|done]. intros _. by eapply lookup_lt_Some. Qed.
  Lemma add_prims c n x s : (∀ a, created s (add csr skip c n x s) a → C (length (c_socks s.1)) a) →
    n < length (c_nsps s.1) → c < length (c_clients s.1) → invA s.1 → rtc prim s (add csr skip c n x s).
  Proof.
    intros HC Hn Hc A. destruct (create_socket_socks c n x s) as (a & Ea & E1 & E2 & E3 & E4 & E5 & E6 & _).
    assert (c_socks (create_socket csr c n x s).1 !! length (c_socks s.1) = Some a) as Ek by (by rewrite Ea, lookup_app_r, Nat.sub_diag).
    assert (rtc prim s (create_socket csr c n x s)) as H.
    { apply create_socket_prims; try done. intros b Hb. apply HC. eapply created_grows; [done|]. unfold add.
      destruct (_ && is_open _ c) eqn:E; [|apply grows_refl]. apply andb_prop in E as [_ E].
      rewrite (do_connect_eq _ a) by (done || by rewrite E4). cbn. eapply grows_alter; [done|]. split; try done. congruence. }
    unfold add. destruct (_ && is_open _ c) eqn:E; [|done]. etrans; [exact H|].
    apply rtc_once. apply (pr_connect _ a); [|done|done|]; [done|].
    rewrite E4. by apply andb_prop in E as [_ ?].
  Qed.
  Lemma of_name_frame os name fn s : c_clients (of_name os name fn s).1 = c_clients s.1 ∧ c_socks (of_name os name fn s).1 = c_socks s.1.
  Proof.
    unfold of_name. destruct (c_reg s.1 !! norm name); [by destruct fn|]. destruct (first_match os s.1 (norm name)).
    - unfold create_child. by destruct (c_parents s.1 !! n).
    - destruct fn; [|by destruct (decide (norm name = "/"))].
      destruct (c_reg _ !! norm name); by destruct (decide (norm name = "/")).
  Qed.
  Lemma created_frame s s1 s2 a : c_socks s1.1 = c_socks s.1 → created s1 s2 a → created s s2 a.
  Proof. intros E H. unfold created. by rewrite <- E. Qed.
  Lemma client_do_connect_prims os c name x s : (∀ a, created s (client_do_connect csr skip os c name x s) a → C (length (c_socks s.1)) a) →
    (c_reg s.1 !! norm name = None → D (BNsp (norm name))) → sords_ok os → c < length (c_clients s.1) → invA s.1 →
    rtc prim s (client_do_connect csr skip os c name x s).
  Proof.
    intros HC HD Hos Hc A. unfold client_do_connect in *. pose proof (of_name_prims os name None s HD Hos A) as H.
    pose proof (invA_rtc _ _ H A) as A'. destruct (of_name_frame os name None s) as [F1 F2].
    destruct (c_reg (of_name os name None s).1 !! norm name) as [n|] eqn:E; [|done].
    etrans; [exact H|]. destruct (ia_name _ A' _ _ E) as (np & Hn & _). apply add_prims; [|by eapply lookup_lt_Some|by rewrite F1|done].
    intros a Ha. rewrite F2. apply HC. by eapply created_frame.
  Qed.
  Lemma accept_prims os c p name x s : (∀ a, created s (accept csr skip os c p name x s) a → C (length (c_socks s.1)) a) →
    (c_reg s.1 !! name = None → D (BNsp name)) → (c_reg s.1 !! norm name = None → D (BNsp (norm name))) → sords_ok os → c < length (c_clients s.1) → invA s.1 →
    rtc prim s (accept csr skip os c p name x s).
  Proof.
    intros HC HD1 HD2 Hos Hc A. unfold accept in *. destruct (c_reg s.1 !! name) eqn:E; [by apply client_do_connect_prims|].
    destruct (c_parents s.1 !! p) as [q|] eqn:Eq.
    - assert (prim s (create_child p name s)) as H by (eapply pr_child; eauto). etrans; [by apply rtc_once|].
      apply client_do_connect_prims; [| |done| |by eapply invA_prim].
      + intros a Ha. rewrite create_child_socks. apply HC. eapply created_frame; [|done]. apply create_child_socks.
      + unfold create_child. rewrite Eq. cbn. intros [HN _]%lookup_insert_None. auto.
      + unfold create_child. by rewrite Eq.
    - replace (create_child p name s) with s in * by (unfold create_child; by rewrite Eq). by apply client_do_connect_prims.
  Qed.
  Lemma connect_prims os c name ans x s : (∀ a, created s (connect csr skip os c name ans x s) a → C (length (c_socks s.1)) a) →
    (∀ q, c_reg s.1 !! name = None → check_loop s.1 ans name (so_parents os (seq 0 (length (c_parents s.1)))) = Some q → D (BNsp name) ∧ D (BNsp (norm name))) →
    (is_Some (c_reg s.1 !! name) → c_reg s.1 !! norm name = None → D (BNsp (norm name))) → sords_ok os → c < length (c_clients s.1) → invA s.1 →
    rtc prim s (connect csr skip os c name ans x s).
  Proof.
    intros HC HD1 HD2 Hos Hc A. unfold connect in *. destruct (c_reg s.1 !! name) eqn:E; [apply client_do_connect_prims; eauto|].
    destruct (check_loop _ _ _ _); [by apply accept_prims; try done; naive_solver|]. by apply rtc_c, write_prims.
  Qed.
  (** The namespaces a step may create. *)
  Definition births_nsp (s : sys) (e : sords * op) (m : string) : Prop :=
    match e.2 with
    | OPacket c p ans x => p_type p = CONNECT ∧
        ((c_reg s.1 !! p_nsp p = None ∧ (∃ q, check_loop s.1 ans (p_nsp p) (so_parents e.1 (seq 0 (length (c_parents s.1)))) = Some q) ∧
           (m = p_nsp p ∨ m = norm (p_nsp p))) ∨
         (is_Some (c_reg s.1 !! p_nsp p) ∧ c_reg s.1 !! m = None ∧ m = norm (p_nsp p)))
    | OAnswer c p name x => m = name ∨ m = norm name
    | OOf raw fn => m = norm raw
    | _ => False
    end.
  Definition births (s : sys) (e : sords * op) (b : birth) : Prop :=
    match b with
    | BNsp m => births_nsp s e m
    | BTask k p => ∃ c ans x, e.2 = OPacket c p ans x ∧ is_open s.1 c = true ∧ cnsps_of s.1 c !! p_nsp p = Some k
    end.
  Definition bad_packet (s : sys) (c : nat) (p : packet) : bool :=
    match cnsps_of s.1 c !! p_nsp p with
    | None => bool_decide (p_type p ≠ CONNECT)
    | Some _ => bool_decide (p_type p = CONNECT ∨ p_type p = CONNECT_ERROR)
    end.
  Lemma ondecoded_bad os c p ans x s : bad_packet s c p = true → ondecoded csr skip clean os c p ans x s = client_close os c s.
  Proof.
    unfold bad_packet, ondecoded. destruct (cnsps_of s.1 c !! p_nsp p); intros H%bool_decide_eq_true; [by rewrite decide_True|by rewrite decide_False].
  Qed.
  Lemma ondecoded_prims os c p ans x s : bad_packet s c p = false → (∀ a, created s (ondecoded csr skip clean os c p ans x s) a → C (length (c_socks s.1)) a) →
    (∀ m, births s (os, OPacket c p ans x) m → D m) → sords_ok os → is_open s.1 c = true → invA s.1 →
    rtc prim s (ondecoded csr skip clean os c p ans x s).
  Proof.
    intros Hb HC HD Hos Hc A. pose proof (λ k p', HD (BTask k p')) as HT. pose proof (λ m, HD (BNsp m)) as HN. clear HD. cbn in HT, HN. unfold bad_packet in Hb. unfold ondecoded in *.
    destruct (cnsps_of s.1 c !! p_nsp p) as [k|] eqn:E; apply bool_decide_eq_false in Hb.
    - rewrite decide_False by done. apply rtc_once. apply (pr_task c); [|naive_solver..]. apply HT. eauto 10.
    - destruct (decide _) as [Hd|Hd]; [|by destruct Hb]. clear HT. apply connect_prims; [done|intros; split; apply HN; naive_solver|intros; apply HN; naive_solver|done|by apply is_open_lt|done].
  Qed.
  Lemma verdict_prims os k err s : sords_ok os → pending s.1 k → rtc prim s (verdict clean os k err s).
  Proof.
    intros Hos (a & E & Ec & Ej). unfold verdict. rewrite E. destruct (is_open s.1 (sk_client a)) eqn:Eo.
    - destruct err as [e|].
      + transitivity (cleanup os k s); [by eapply rtc_once, pr_refuse|by apply rtc_c, sock_packet_prims].
      + by eapply rtc_once, pr_connect.
    - by eapply rtc_once, pr_refuse.
  Qed.
  (** Steps that only write, call handlers and close. *)
  Definition closing_op (o : op) : bool :=
    match o with
    | OTask _ | OTimer _ | OTransport _ _ | OError _ | ODisconnect _ _ | OEmit _ _ _ | OBroadcast _ _ _ _ | OBulkDisconnect _ _ _
    | OParentBroadcast _ _ _ _ | OParentEmit _ _ _ | OShutdown => true
    | _ => false
    end.
  Definition closing_step (s : sys) (e : sords * op) : bool :=
    match e.2 with
    | OPacket c p _ _ => is_open s.1 c && bad_packet s c p
    | o => closing_op o
    end.
  Lemma step_cprims e s : (∀ r a, Q (Some r) a) → ((∃ i, e.2 = OTask i) → ∀ a, Q None a) → closing_step s e = true → sords_ok e.1 → invA s.1 → rtc cprim s (sstep e s).
  Proof.
    intros HQ HT Hc Hos A. destruct e as [os o]. cbn [fst snd] in *. destruct o; try discriminate; cbn [step fst snd].
    - cbn in Hc. apply andb_prop in Hc as [-> Hb]. rewrite ondecoded_bad by done. apply client_close_good; auto.
    - destruct (c_tasks s.1 !! i) as [[k p]|]; [|done].
      etrans; [apply rtc_once, (pr_take i)|]. apply onpacket_good; [intros [] ?; eauto|done|]. eapply invA_cprim; [apply (pr_take i)|done].
    - destruct (c_clients s.1 !! c) as [cl|]; [|done]. destruct (_ && _); [|done]. by apply client_close_good.
    - etrans; [apply rtc_once, (pr_shut c)|]. apply client_onclose_good; [done|done|apply shut_closed|]. eapply invA_cprim; [apply (pr_shut c)|done].
    - by apply onerror_good.
    - by apply disconnect_st_good.
    - by apply emit_good.
    - by apply broadcast_good.
    - apply apply_cgood; [|done]. intros k. by apply disconnect_st_good.
    - by apply parent_broadcast_good.
    - by apply parent_emit_good.
    - by apply shutdown_good.
  Qed.
  Lemma step_oprims e s : closing_step s e = false → (∀ a, created s (sstep e s) a → C (length (c_socks s.1)) a) → (∀ m, births s e m → D m) → op_env s e → invA s.1 → rtc prim s (sstep e s).
  Proof.
    intros Ecl HC HD [Hos He] A.
    destruct e as [os o]. cbn [fst snd] in *. destruct o; try discriminate; cbn [step fst snd] in *.
    - assert (prim s (on_core (λ y, set_clients (c_clients y ++ [Client id p3 true ∅ ∅ true]) y) s)) as Hp by apply pr_open.
      destruct p3; [|by apply rtc_once]. etrans; [by apply rtc_once|]. apply connect_prims; [| | |done| |by eapply invA_prim].
      + intros a Ha. apply HC. eapply created_frame; [|done]. done.
      + cbn. rewrite (ia_root _ A). by intros.
      + intros _ HN. change (c_reg s.1 !! "/" = None) in HN. by rewrite (ia_root _ A) in HN.
      + cbn. rewrite app_length. cbn. lia.
    - cbn in Ecl. destruct (is_open s.1 c) eqn:E; [|done]. by apply ondecoded_prims.
    - destruct He as [He _]; apply accept_prims; auto; intros; apply HD; cbn; auto.
    - by apply verdict_prims.
    - apply rtc_once, pr_join.
    - apply rtc_once, pr_leave.
    - apply of_name_prims; auto. intros _. by apply HD.
    - apply rtc_once, pr_parent.
    - apply rtc_once, pr_pon.
    - apply rtc_once, pr_puse.
    - apply rtc_once, pr_use.
    - apply apply_good; [|done]. intros k. apply join_good.
    - apply apply_good; [|done]. intros k. apply good_foldl. intros r. apply leave_good.
  Qed.

  Lemma step_prims e s : (∀ r a, Q r a) → (∀ a, created s (sstep e s) a → C (length (c_socks s.1)) a) → (∀ m, births s e m → D m) → op_env s e → invA s.1 → rtc prim s (sstep e s).
  Proof.
    intros HQ HC HD He A. destruct (closing_step s e) eqn:Ecl; [apply rtc_c, step_cprims; [done|done|done|apply He|done]|by apply step_oprims].
  Qed.

  (** ** Histories *)
  Notation srun := (run csr skip clean).
  Lemma run_snoc h e : srun (h ++ [e]) = sstep e (srun h).
  Proof. unfold run. by rewrite foldl_app. Qed.
  Lemma run_app h1 h2 : srun (h1 ++ h2) = foldl (λ s e, sstep e s) (srun h1) h2.
  Proof. unfold run. by rewrite foldl_app. Qed.
  Lemma env_snoc h e : env_ok csr skip clean (h ++ [e]) ↔ env_ok csr skip clean h ∧ op_env (srun h) e.
  Proof.
    split.
    - intros H. split.
      + intros h1 e' h2 ->. apply (H h1 e' (h2 ++ [e])). by rewrite <- app_assoc.
      + by apply (H h e []).
    - intros [H1 H2] h1 e' h2 E. destruct h2 as [|e2 y _] using rev_ind.
      + apply app_inj_tail in E as [-> ->]. done.
      + rewrite app_comm_cons, app_assoc in E. apply app_inj_tail in E as [-> ->]. by eapply H1.
  Qed.
  Lemma env_app h1 h2 : env_ok csr skip clean (h1 ++ h2) → env_ok csr skip clean h1.
  Proof. intros H h3 e h4 ->. apply (H h3 e (h4 ++ h2)). by rewrite <- app_assoc. Qed.
End sysproofs.

Section histories.
  Context (csr skip clean : bool).
  Notation sstep := (step csr skip clean).
  Notation srun := (run csr skip clean).
  Notation prim := (prim csr clean (λ _ _, True) (λ _ _, True) (λ _, True)).
  Lemma step_prims_any e s : op_env s e → invA s.1 → rtc prim s (sstep e s).
  Proof. intros. by apply step_prims. Qed.
  (** An invariant of the elementary transitions holds after every history. *)
  Lemma run_inv (P : sys → Prop) : P init → (∀ s s', prim s s' → invA s.1 → P s → P s') →
    ∀ h, env_ok csr skip clean h → invA (srun h).1 ∧ P (srun h).
  Proof.
    intros H0 Hp h. induction h as [|e h IH] using rev_ind; intros He.
    - split; [exact (invA_init (λ _ _, True))|done].
    - apply env_snoc in He as [He Ho]. destruct (IH He) as [A HP]. rewrite run_snoc.
      pose proof (step_prims_any e _ Ho A) as Hr. clear -Hr Hp A HP. induction Hr as [|s1 s2 s3 H1 H2 IH']; [done|].
      apply IH'; [by eapply invA_prim|by eapply Hp].
  Qed.
End histories.
