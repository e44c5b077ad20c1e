(** Property C69: what can be done with a parent namespace. *)
From Verif Require Import Base GoTypes Rooms Adapter AdapterSpec AdapterRun AdapterRunSpec BcastAck BcastAckSpec Family FamilySpec FamilyProofs.

(** ** C69 Operations on a parent namespace
    [kid n h] is the history of a namespace without parent: what was done in child [n] since it was created, and a broadcast of its own for
    every emission of the parent, with the same options.  The child is in the state that this history leads to; nothing else that is called
    on the parent appears in it. *)
Theorem C69_children : ∀ (P : Type) (rep : bool) (h : list (fop P)) (n : nat), Forall fop_ok h → fa_kids (f_run rep h) !! n = ns_run rep <$> kid n h.
Proof. exact @c69_children_l. Qed.
Print Assumptions C69_children.
Theorem C69_received : ∀ (P : Type) (rep : bool) (h : list (fop P)) (n : nat) (l : list (nsop P)), Forall fop_ok h → kid n h = Some l →
  ∃ ns, fa_kids (f_run rep h) !! n = Some ns ∧
    (∀ id, listed ns id ↔ v_listed (view_of l) id) ∧ (∀ id r, in_room ns id r ↔ v_in (view_of l) id r) ∧ ∀ id x, received l id x ↔ packets_of id ns = x.
Proof. exact @c69_received_l. Qed.
Print Assumptions C69_received.
(** Bulk operations of a parent (SocketsJoin, SocketsLeave, DisconnectSockets) have no effect; its queries find nobody. *)
Theorem C69_bulk : ∀ (P : Type) (rep : bool) (h : list (fop P)) (op : fop P), Forall fop_ok (h ++ [op]) → is_bulk op → f_run rep (h ++ [op]) = f_run rep h.
Proof. exact @c69_bulk_l. Qed.
Print Assumptions C69_bulk.
Theorem C69_queries : ∀ (P : Type) (rep : bool) (h : list (fop P)) (o : orders) (opts : option bopts) (rooms : option (gset room)), Forall fop_ok h → orders_ok o →
  f_fetch o opts (f_run rep h) = [] ∧ f_all o rooms (f_run rep h) = ∅.
Proof. exact @c69_queries_l. Qed.
Print Assumptions C69_queries.
(** An emission of the parent with a callback makes one collection of replies for each child (number [i] of child [n]), which waits for the
    clients of that child and has a timer of its own; all of them call the same callback. *)
Theorem C69_ack : ∀ (P : Type) (rep : bool) (h1 h2 : list (fop P)) (p : P) (ks : gset nat → list nat) (os : nat → orders), Forall fop_ok (h1 ++ FEmitAck p ks os :: h2) →
  let s := f_run rep (h1 ++ FEmitAck p ks os :: h2) in
  ∃ l : list (nat * nat), NoDup l.*1 ∧ NoDup l.*2 ∧ (∀ n, n ∈ l.*1 ↔ is_Some (kid n h1)) ∧
    ∀ i b, fa_asks s !! i = Some (asked h1, b) ↔ ∃ n c, (n, i) ∈ l ∧ clients n h1 c ∧ b = bserial 1 false (EbCount c :: EbFinish :: answers i h2).
Proof. exact @c69_ack_l. Qed.
Print Assumptions C69_ack.
(** So it is called once per child, at the latest when the timers have expired (replies of one argument, C13), *)
Theorem C69_ack_times : ∀ (P : Type) (rep : bool) (h1 h2 : list (fop P)) (p : P) (ks : gset nat → list nat) (os : nat → orders), Forall fop_ok (h1 ++ FEmitAck p ks os :: h2) →
  let s := f_run rep (h1 ++ FEmitAck p ks os :: h2) in
  (∀ i, one_arg (answers i h2)) → (∀ i b, fa_asks s !! i = Some (asked h1, b) → EbTimer ∈ answers i h2) →
  ∃ K, NoDup K ∧ (∀ n, n ∈ K ↔ is_Some (kid n h1)) ∧ length (f_calls (asked h1) s) = length K.
Proof. exact @c69_ack_times_l. Qed.
Print Assumptions C69_ack_times.
(** and never when there is no child: there is not even a timer. *)
Theorem C69_ack_never : ∀ (P : Type) (rep : bool) (h1 h2 : list (fop P)) (p : P) (ks : gset nat → list nat) (os : nat → orders), Forall fop_ok (h1 ++ FEmitAck p ks os :: h2) →
  (∀ n, kid n h1 = None) → f_calls (asked h1) (f_run rep (h1 ++ FEmitAck p ks os :: h2)) = [].
Proof. exact @c69_never_l. Qed.
Print Assumptions C69_ack_never.
(** Through To, Except...: nobody is notified (C69_children) and the callback is told at once that all of nobody replied. *)
Theorem C69_via_ack : ∀ (P : Type) (rep : bool) (h1 h2 : list (fop P)) (p : P) (o : orders) (opts : option bopts), Forall fop_ok (h1 ++ FViaAck p o opts :: h2) →
  f_calls (asked h1) (f_run rep (h1 ++ [FViaAck p o opts])) = [BOk []] ∧
  ∃ i, ∀ k b, fa_asks (f_run rep (h1 ++ FViaAck p o opts :: h2)) !! k = Some (asked h1, b) ↔ k = i ∧ b = bserial 1 false (EbCount 0 :: EbFinish :: answers i h2).
Proof. exact @c69_via_ack_l. Qed.
Print Assumptions C69_via_ack.

(** ** Expectations that are false *)
Definition fam_keys : gset nat → list nat := elements.
Lemma fam_keys_ok : keys_ok fam_keys.
Proof. intros X. reflexivity. Qed.
Definition fam_two : list (fop string) := [FCreate 1; FCreate 2; FChild 1 (NOpen "a"); FChild 2 (NOpen "b")].
(** A callback is called at most once. *)
Theorem C69_once_refuted : ∃ h1 h2 : list (fop string), let h := h1 ++ FEmitAck "p" fam_keys (λ _, orders_std) :: h2 in
  Forall fop_ok h ∧ f_calls (asked h1) (f_run false h) = [BOk [VStr "yes"]; BErr []].
Proof.
  exists fam_two, [FAnswer 0 (Some [VStr "yes"]); FAnswer 1 None]. cbv zeta. split; [|vm_compute; reflexivity].
  repeat apply Forall_cons_2; try done. split; [exact fam_keys_ok|]. intros n. split_and!; intros; apply ord_std_ok.
Qed.
Print Assumptions C69_once_refuted.
(** "Makes the matching socket instances join the specified rooms." *)
Theorem C69_join_refuted : ∃ (h : list (fop string)) (ns : nspace string), let h' := h ++ [FJoin orders_std None ["r"]] in
  Forall fop_ok h' ∧ fa_kids (f_run false h') !! 1 = Some ns ∧ is_Some (ns_sockets ns !! "a") ∧ "a" ∉ members_of (ns_reg ns) "r".
Proof.
  exists fam_two, (ns_run false [NOpen "a"]). cbv zeta. split; [|split; [|split]].
  - repeat apply Forall_cons_2; try done. split_and!; intros; apply ord_std_ok.
  - vm_compute. reflexivity.
  - vm_compute. by eexists.
  - apply (bool_decide_unpack _). vm_compute. exact I.
Qed.
Print Assumptions C69_join_refuted.

(** Two children with one client each.  An emission of the parent reaches both, one to room "r" only "b", one with a callback both, one to a
    room with a callback nobody. *)
Definition fam_ex : list (fop string) := fam_two ++ [FChild 2 (NJoin "b" ["r"]); FEmit "one" fam_keys (λ _, orders_std);
  FVia "two" fam_keys (λ _, orders_rev) (Some (BOpts (Some {["r"]}) None None)); FEmitAck "three" fam_keys (λ _, orders_std); FViaAck "four" orders_std None;
  FDisconnect orders_std None; FAnswer 1 (Some [VStr "yes"]); FAnswer 0 None].
Example C69_example : Forall fop_ok fam_ex ∧
  packets_of "a" <$> fa_kids (f_run false fam_ex) !! 1 = Some ["one"; "three"] ∧ packets_of "b" <$> fa_kids (f_run false fam_ex) !! 2 = Some ["one"; "two"; "three"] ∧
  length <$> kid 2 fam_ex = Some 5 ∧
  f_calls 0 (f_run false fam_ex) = [BErr []; BOk [VStr "yes"]] ∧ f_calls 1 (f_run false fam_ex) = [BOk []] ∧
  asked fam_ex = 2 ∧ (fst <$> fa_asks (f_run false fam_ex)) = [0; 0; 1] ∧ answers 1 fam_ex = [EbReply [VStr "yes"]] ∧ f_fetch orders_std None (f_run false fam_ex) = [].
Proof.
  split; [|split_and!; vm_compute; reflexivity]. repeat apply Forall_cons_2; try done; cbn; try (split; [exact fam_keys_ok|]; intros n); split_and!; intros; first [apply ord_std_ok|apply ord_rev_ok].
Qed.
