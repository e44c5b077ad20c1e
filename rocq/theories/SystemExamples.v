(** Concrete histories for the examples and counterexamples of [PropsSystem.v], and deciders for the
    conditions on the environment. *)
From Verif Require Import Base GoTypes Rooms RoomsSpec RoomsProofs Adapter AdapterSpec Session System SystemSpec SystemProofs.

Definition os1 : sords := SOrds orders_std (λ _, ord_std) ord_std (λ _, ord_std) id elements.
Definition os2 : sords := SOrds orders_rev (λ _, ord_rev) ord_rev (λ _, ord_rev) (λ l, reverse l) (λ X, reverse (elements X)).
Lemma os1_ok : sords_ok os1.
Proof.
  assert (order_ok ord_std) as H by (intros X; done). split_and!; try done.
Qed.
Lemma os2_ok : sords_ok os2.
Proof.
  assert (order_ok ord_rev) as H by (intros X; apply reverse_Permutation).
  split_and!; try done; intros; apply reverse_Permutation.
Qed.

Section deciders.
  Context (csr skip clean : bool).
  Notation sstep := (step csr skip clean).
  Notation srun := (run csr skip clean).

  Definition pendingb (a : sock) : bool := negb (sk_connected a) && sk_can_join a.
  Definition envb (s : sys) (o : op) : bool :=
    match o with
    | OVerdict k _ => match c_socks s.1 !! k with Some a => pendingb a | None => false end
    | OAnswer c p _ _ => Nat.ltb c (length (c_clients s.1)) && match c_parents s.1 !! p with Some (Parent MFun _ _ _) => true | _ => false end
    | _ => true
    end.
  Definition politeb (s : sys) (e : sords * op) : bool :=
    let s' := sstep e s in
    match c_socks s'.1 !! length (c_socks s.1) with
    | None => true
    | Some a => forallb (λ b,
        (negb (bool_decide (sk_id b = sk_id a)) || negb (sk_can_join b) && bool_decide (name_of s'.1 (sk_nsp b) = name_of s'.1 (sk_nsp a))) &&
        (negb (sk_can_join b && bool_decide (sk_client b = sk_client a) && bool_decide (name_of s'.1 (sk_nsp b) = name_of s'.1 (sk_nsp a))) ||
         sk_connected b && match e.2 with OOpen _ _ _ _ | OPacket _ _ _ _ => true | _ => false end)) (c_socks s.1)
    end && match e.2 with OPacket c p ans x => bool_decide (norm (p_nsp p) = p_nsp p) | _ => true end.
  Definition attendb (s : sys) : bool :=
    forallb (λ a, negb (pendingb a) || bool_decide (c_reg s.1 !! name_of s.1 (sk_nsp a) = Some (sk_nsp a))) (c_socks s.1).
  Fixpoint alongb (f : sys → sords * op → bool) (s : sys) (h : list (sords * op)) : bool :=
    match h with [] => true | e :: h => f s e && alongb f (sstep e s) h end.
  Lemma alongb_ok f h : alongb f (init) h = true → ∀ h1 e h2, h = h1 ++ e :: h2 → f (srun h1) e = true.
  Proof.
    intros H h1 e h2 ->. unfold run. revert H. generalize (init). induction h1 as [|e1 h1 IH]; intros s; cbn; intros [H1 H2]%andb_prop; [done|by apply IH].
  Qed.
  Lemma env_dec h : (∀ e, e ∈ h → sords_ok e.1) → alongb (λ s e, envb s e.2) init h = true → env_ok csr skip clean h.
  Proof.
    intros Ho H h1 e h2 E. split; [apply Ho; rewrite E; set_solver|]. pose proof (alongb_ok _ _ H h1 e h2 E) as Hb. cbn beta in Hb. revert Hb. destruct (e.2); try done; cbn; intros Hb.
    - apply andb_prop in Hb as [H1%Nat.ltb_lt H2]. split; [done|]. destruct (c_parents _ !! p) as [[[] ? ? ?]|] eqn:Ep; try done. by eexists.
    - destruct (c_socks _ !! k) as [a|] eqn:Ek; [|done]. apply andb_prop in Hb as [H1%negb_true_iff H2]. by exists a.
  Qed.
  Lemma polite_dec h : alongb politeb init h = true → polite csr skip clean h.
  Proof.
    intros H h1 e h2 E. pose proof (alongb_ok _ _ H h1 e h2 E) as Hb. apply andb_prop in Hb as [Hb H2]. split.
    - intros a Ha j b Hj. rewrite Ha in Hb. apply elem_of_list_lookup_2 in Hj. rewrite forallb_forall in Hb. specialize (Hb b). rewrite <- elem_of_list_In in Hb.
      specialize (Hb Hj). apply andb_prop in Hb as [H3 H4]. split.
      + intros Hi. rewrite bool_decide_true in H3 by done. cbn in H3. apply andb_prop in H3 as [H3%negb_true_iff H5%bool_decide_eq_true]. done.
      + intros Hc Hcl Hn. rewrite Hc, !bool_decide_true in H4 by done. cbn in H4. apply andb_prop in H4 as [H4 H5]. split; [done|]. revert H5. by destruct (e.2).
    - revert H2. destruct (e.2); try done. intros H2. by apply bool_decide_eq_true in H2.
  Qed.
  Lemma attended_dec h : attendb init && alongb (λ s e, attendb (sstep e s)) init h = true → attended csr skip clean h.
  Proof.
    intros [H0 H]%andb_prop h1 h2 E k a (b & Hb & Hc & Hj) Hk. rewrite Hk in Hb. injection Hb as <-.
    assert (attendb (srun h1) = true) as Ha.
    { destruct h1 as [|e h1 _] using rev_ind; [done|]. rewrite run_snoc. apply (alongb_ok _ _ H h1 e h2). by rewrite E, <- app_assoc. }
    unfold attendb in Ha. rewrite forallb_forall in Ha. specialize (Ha a). rewrite <- elem_of_list_In in Ha. specialize (Ha (elem_of_list_lookup_2 _ _ _ Hk)).
    unfold pendingb in Ha. rewrite Hc, Hj in Ha. cbn in Ha. by apply bool_decide_eq_true in Ha.
  Qed.
End deciders.

Definition joinsb (x : core) (c : nat) (m : string) (a : sock) : bool :=
  sk_connected a && bool_decide (sk_client a = c) && bool_decide (name_of x (sk_nsp a) = m).
Lemma joined_dec x c m k : match c_socks x !! k with Some a => joinsb x c m a | None => false end = true → joined x c m k.
Proof.
  destruct (c_socks x !! k) as [a|] eqn:E; [|done]. intros [[H1 H2%bool_decide_eq_true]%andb_prop H3%bool_decide_eq_true]%andb_prop. by exists a.
Qed.
Lemma joined_not x c m : existsb (joinsb x c m) (c_socks x) = false → ¬ ∃ k, joined x c m k.
Proof.
  intros H (k & a & Hk & H1 & H2 & H3). assert (existsb (joinsb x c m) (c_socks x) = true) as H'; [|congruence].
  apply existsb_exists. exists a. split; [apply elem_of_list_In; by eapply elem_of_list_lookup_2|]. unfold joinsb. by rewrite H1, !bool_decide_true.
Qed.
Lemma connected_dec x k : (sk_connected <$> c_socks x !! k) = Some true → connected x k.
Proof. destruct (c_socks x !! k) as [a|] eqn:E; [|done]. intros [= H]. by exists a. Qed.

Definition acceptsb (x : core) (ans : nat → option bool) (m : string) (q : nat) : bool :=
  match c_parents x !! q with Some pa => match pa_match pa with MRegex f => f m | MFun => bool_decide (ans q = Some true) end | None => false end.
Lemma accepts_not x ans m : existsb (acceptsb x ans m) (seq 0 (length (c_parents x))) = false → ∀ q, ¬ accepts x ans m q.
Proof.
  intros H q (pa & Hq & Hm). assert (existsb (acceptsb x ans m) (seq 0 (length (c_parents x))) = true) as H'; [|congruence].
  apply existsb_exists. exists q. split; [apply in_seq; apply lookup_lt_Some in Hq; lia|]. unfold acceptsb. rewrite Hq. destruct (pa_match pa); [done|]. by apply bool_decide_eq_true.
Qed.

(** A history is a list of operations; the orders are [os1]. *)
Definition hist (l : list op) : list (sords * op) := (λ o, (os1, o)) <$> l.
Lemma hist_ok l e : e ∈ hist l → sords_ok e.1.
Proof. intros (o & -> & _)%elem_of_list_fmap. apply os1_ok. Qed.

Lemma logged (l : list (core * eff)) i e : l.*2 !! i = Some e → ∃ x, (x, e) ∈ l.
Proof. rewrite list_lookup_fmap. destruct (l !! i) as [[x e']|] eqn:E; [|done]. intros [= <-]. exists x. by eapply elem_of_list_lookup_2. Qed.

(** Abbreviations. *)
Definition silent : nat → option bool := λ _, None.
Definition arr (i : string) : arrival := Arrival i None.
Definition enters (c : nat) (m : string) (i : string) : op := OPacket c (Packet CONNECT m [] None) silent (arr i).
Definition says (c : nat) (m : string) (v : list value) : op := OPacket c (Packet EVENT m v None) silent (arr "").
Definition all_opts : option bopts := Some (BOpts (Some ∅) (Some ∅) (Some no_flags)).
Definition room_opts (r : room) : option bopts := Some (BOpts (Some {[r]}) (Some ∅) (Some no_flags)).

(** Two clients; client 0 is in "/" (socket 0) and "/chat" (socket 1), client 1 in "/chat" (socket 2); all in
    room "r"; client 2 is refused (socket 3) after its middleware put it in room "r". *)
Definition h_chat : list op :=
  [ OOpen "c0" false silent (arr ""); enters 0 "/" "s0"; OVerdict 0 None;
    OOf "chat" (Some 7); enters 0 "/chat" "s1"; OVerdict 1 None;
    OOpen "c1" false silent (arr ""); enters 1 "/chat" "s2"; OVerdict 2 None;
    OJoin 0 ["r"]; OJoin 1 ["r"]; OJoin 2 ["r"; "q"];
    OOpen "c2" false silent (arr ""); enters 2 "/chat" "s3"; OJoin 3 ["r"] ].
(** A parent namespace for the names "/d…", with two children and a socket in each: sockets 0 and 1; client 0
    owns socket 0, client 1 sockets 1 and 2; socket 2 is in the child of socket 0. *)
Definition starts_d (m : string) : bool := match m with String _ (String ch _) => bool_decide (String ch EmptyString = "d") | _ => false end.
Definition h_dyn : list op :=
  [ OOfParent (MRegex starts_d) (Some 3); OOpen "c0" false silent (arr ""); OOpen "c1" false silent (arr "");
    enters 0 "/d1" "s0"; OVerdict 0 None; enters 1 "/d2" "s1"; OVerdict 1 None; enters 1 "/d1" "s2"; OVerdict 2 None; OJoin 2 ["r"] ].
(** Client 1 is still being admitted to "/d1" (socket 1) when the only socket of that namespace leaves. *)
Definition h_orphan : list op :=
  [ OOfParent (MRegex starts_d) None; OOpen "c0" false silent (arr ""); OOpen "c1" false silent (arr "");
    enters 0 "/d1" "s0"; OVerdict 0 None; enters 1 "/d1" "s1"; ODisconnect 0 false ].
