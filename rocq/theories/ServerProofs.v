(** The server refines the reference server (C66). *)
From Verif Require Import Base GoTypes Rooms RoomsSpec RoomsProofs Adapter AdapterSpec Session System SystemSpec SystemProofs SystemLife SystemPolite SystemClaims SystemNsp ServerSpec.

(** ** Lists *)
Section indices.
  Context {A : Type}.
  Definition pick (P : A → bool) (g : nat → nat) (l : list A) : list nat := omap id (imap (λ k a, if P a then Some (g k) else None) l).
  Lemma pick_cons P g a l : pick P g (a :: l) = (if P a then [g 0] else []) ++ pick P (g ∘ S) l.
  Proof. unfold pick. cbn. destruct (P a); done. Qed.
  Lemma elem_of_pick P g l y : y ∈ pick P g l ↔ ∃ k a, l !! k = Some a ∧ P a = true ∧ y = g k.
  Proof.
    revert g. induction l as [|a l IH]; intros g.
    - split; [by intros ?%elem_of_nil|]. intros (k & a & H & _). done.
    - rewrite pick_cons, elem_of_app, IH. split.
      + intros [H|(k & b & H & Hb & ->)].
        * destruct (P a) eqn:E; [|by apply elem_of_nil in H]. apply elem_of_list_singleton in H as ->. by exists 0, a.
        * by exists (S k), b.
      + intros ([|k] & b & H & Hb & ->); cbn in H.
        * injection H as ->. left. rewrite Hb. by apply elem_of_list_singleton.
        * right. by exists k, b.
  Qed.
  Lemma pick_NoDup P g l : (∀ i j, g i = g j → i = j) → NoDup (pick P g l).
  Proof.
    revert g. induction l as [|a l IH]; intros g Hg; [constructor|]. rewrite pick_cons. apply NoDup_app. split_and!.
    - destruct (P a); [apply NoDup_singleton|constructor].
    - intros x Hx (k & b & H & Hb & E)%elem_of_pick. destruct (P a); [|by apply elem_of_nil in Hx].
      apply elem_of_list_singleton in Hx as ->. apply Hg in E. done.
    - apply IH. intros i j E%Hg. by injection E.
  Qed.
End indices.
Lemma pick_ext {A B} (P : A → bool) (P' : B → bool) g l l' : (∀ k, P <$> l !! k = P' <$> l' !! k) → pick P g l = pick P' g l'.
Proof.
  revert g l'. induction l as [|a l IH]; intros g l' H.
  - destruct l' as [|b l']; [done|]. specialize (H 0). done.
  - destruct l' as [|b l']; [by specialize (H 0)|]. rewrite !pick_cons. pose proof (H 0) as H0. cbn in H0. injection H0 as ->.
    f_equal. apply IH. intros k. apply (H (S k)).
Qed.
Lemma those_pick P v : those P v = pick P id (us_socks v).
Proof. done. Qed.
Lemma elem_of_those P v k : k ∈ those P v ↔ ∃ a, us_socks v !! k = Some a ∧ P a = true.
Proof.
  rewrite those_pick, elem_of_pick. split.
  - intros (k' & a & H & Ha & ->). by exists a.
  - intros (a & H & Ha). by exists k, a.
Qed.
Lemma those_NoDup P v : NoDup (those P v).
Proof. rewrite those_pick. by apply pick_NoDup. Qed.
Lemma those_ext P P' v v' : (∀ k, P <$> us_socks v !! k = P' <$> us_socks v' !! k) → those P v = those P' v'.
Proof. intros H. rewrite !those_pick. by apply pick_ext. Qed.

Section abs.
  Context (csr clean : bool).
  Notation depart := (depart clean).
  Notation ends := (ends clean).
  Notation ended_names := (ended_names clean).
  Notation child_ends := (child_ends clean).
  Notation u_close := (u_close csr clean).
  Notation bye := (bye csr).

  Lemma without_lookup K v k : without K v !! k = (λ a, if decide (k ∈ K) then be Gone ∅ a else a) <$> us_socks v !! k.
  Proof. unfold without. by rewrite list_lookup_imap. Qed.
  Lemma ends_spec K v n : ends K v n = true ↔ clean = true ∧ (∃ k a, k ∈ K ∧ us_socks v !! k = Some a ∧ u_nsp a = n) ∧
    ∀ k a, us_socks v !! k = Some a → k ∉ K → here a = true → u_nsp a ≠ n.
  Proof.
    unfold ServerSpec.ends. rewrite !andb_true_iff, negb_true_iff, existsb_exists. split.
    - intros [[Hc (k & Hk & H)] H2]. split; [done|]. split.
      + destruct (us_socks v !! k) as [a|] eqn:E; [|done]. apply bool_decide_eq_true in H. exists k, a. split; [|done]. by apply elem_of_list_In.
      + intros j b Ej Hj Hb Hn. assert (existsb (λ a, here a && bool_decide (u_nsp a = n)) (without K v) = true) as H3; [|congruence].
        apply existsb_exists. exists b. split.
        * apply elem_of_list_In, (elem_of_list_lookup_2 _ j). rewrite without_lookup, Ej. cbn. by rewrite decide_False.
        * rewrite Hb. by apply bool_decide_eq_true.
    - intros (Hc & (k & a & Hk & E & Hn) & H2). split; [split; [done|]|].
      + exists k. split; [by apply elem_of_list_In|]. rewrite E. by apply bool_decide_eq_true.
      + apply not_true_is_false. intros (b & Hb & Hh)%existsb_exists. apply elem_of_list_In, elem_of_list_lookup in Hb as [j Ej].
        rewrite without_lookup in Ej. apply fmap_Some in Ej as (b0 & Ej & ->). case_decide as Hd; [done|]. apply andb_prop in Hh as [Hh Hhn].
        apply bool_decide_eq_true in Hhn. by apply (H2 j b0).
  Qed.
  Lemma elem_of_ended K v m : m ∈ ended_names K v ↔ ∃ n np, us_nsps v !! n = Some np ∧ un_name np = m ∧ is_Some (un_parent np) ∧ ends K v n = true.
  Proof.
    unfold ServerSpec.ended_names. rewrite elem_of_list_omap. split.
    - intros (o & Ho & E). cbn in E. subst o. apply elem_of_list_lookup in Ho as [n Hn]. rewrite list_lookup_imap in Hn.
      apply fmap_Some in Hn as (np & Hn & E). exists n, np. destruct (bool_decide _ && ends K v n) eqn:E2; [|done].
      apply andb_prop in E2 as [E2 E3]. apply bool_decide_eq_true in E2. injection E as ->. done.
    - intros (n & np & Hn & <- & Hp & He). exists (Some (un_name np)). split; [|done]. apply (elem_of_list_lookup_2 _ n).
      rewrite list_lookup_imap, Hn. cbn. by rewrite bool_decide_eq_true_2, He.
  Qed.
  (** Equality of servers after departures, from their effect on names and children. *)
  Lemma depart_eq K v socks parents names :
    socks = without K v →
    (∀ m, names !! m = if decide (m ∈ ended_names K v) then None else us_names v !! m) →
    (∀ p, parents !! p = (λ q, pa_set_children (filter (λ n, ¬ child_ends K v p n) (pa_children q)) q) <$> us_parents v !! p) →
    depart K v = UServer socks (us_clients v) (us_nsps v) parents names (us_tasks v).
  Proof.
    intros -> Hn Hp. unfold ServerSpec.depart. f_equal.
    - apply list_eq. intros p. by rewrite list_lookup_imap, Hp.
    - apply map_eq. intros m. rewrite Hn. case_decide as Hd.
      + apply map_filter_lookup_None. right. intros x _ Hx. by apply Hx.
      + destruct (us_names v !! m) as [n|] eqn:E.
        * by apply map_filter_lookup_Some.
        * apply map_filter_lookup_None. by left.
  Qed.
  Lemma depart_names K v m : us_names (depart K v) !! m = if decide (m ∈ ended_names K v) then None else us_names v !! m.
  Proof.
    cbn. case_decide as Hd.
    - apply map_filter_lookup_None. right. intros x _ Hx. by apply Hx.
    - destruct (us_names v !! m) as [n|] eqn:E.
      + by apply map_filter_lookup_Some.
      + apply map_filter_lookup_None. by left.
  Qed.
  Lemma depart_parents K v p : us_parents (depart K v) !! p = (λ q, pa_set_children (filter (λ n, ¬ child_ends K v p n) (pa_children q)) q) <$> us_parents v !! p.
  Proof. cbn. by rewrite list_lookup_imap. Qed.
  Lemma pa_filter (P P' : nat → Prop) `{∀ x, Decision (P x)} `{∀ x, Decision (P' x)} q : (∀ n, n ∈ pa_children q → P n ↔ P' n) →
    pa_set_children (filter P (pa_children q)) q = pa_set_children (filter P' (pa_children q)) q.
  Proof. intros E. unfold pa_set_children. f_equal. apply set_eq. intros n. rewrite !elem_of_filter. naive_solver. Qed.
  Lemma depart_ext K K' v : (∀ k, k ∈ K ↔ k ∈ K') → depart K v = depart K' v.
  Proof.
    intros E. assert (∀ n, ends K v n = ends K' v n) as En.
    { intros n. apply eq_true_iff_eq. rewrite !ends_spec. by setoid_rewrite E. }
    etrans; [apply (depart_eq _ _ (us_socks (depart K' v)) (us_parents (depart K' v)) (us_names (depart K' v)))|done].
    - cbn [us_socks ServerSpec.depart]. apply list_eq. intros k. rewrite !without_lookup. destruct (us_socks v !! k) as [a|]; [|done]. cbn. f_equal.
      do 2 case_decide; naive_solver.
    - intros m. rewrite depart_names. assert (m ∈ ended_names K v ↔ m ∈ ended_names K' v) as Em.
      { rewrite !elem_of_ended. by setoid_rewrite En. }
      do 2 case_decide; naive_solver.
    - intros p. rewrite depart_parents. destruct (us_parents v !! p) as [q|]; [|done]. cbn. f_equal. apply pa_filter.
      intros n _. unfold ServerSpec.child_ends. by rewrite En.
  Qed.
  Lemma somebody (K : list nat) v n : (∃ j b, j ∈ K ∧ us_socks v !! j = Some b ∧ u_nsp b = n) ∨ (∀ j b, j ∈ K → us_socks v !! j = Some b → u_nsp b ≠ n).
  Proof.
    induction K as [|k K IH]; [right; by intros j b ?%elem_of_nil|]. destruct IH as [(j & b & Hj & H)|IH].
    - left. exists j, b. split; [|done]. apply elem_of_cons. by right.
    - destruct (us_socks v !! k) as [a|] eqn:E.
      + destruct (decide (u_nsp a = n)) as [Hn|Hn].
        * left. exists k, a. split; [|done]. apply elem_of_cons. by left.
        * right. intros j b [->|Hj]%elem_of_cons Ej; [congruence|]. by apply (IH j b).
      + right. intros j b [->|Hj]%elem_of_cons Ej; [congruence|]. by apply (IH j b).
  Qed.
  Lemma depart_lookup K v k : us_socks (depart K v) !! k = (λ a, if decide (k ∈ K) then be Gone ∅ a else a) <$> us_socks v !! k.
  Proof. apply without_lookup. Qed.
  Lemma depart_nsp K v k b : us_socks (depart K v) !! k = Some b → ∃ a, us_socks v !! k = Some a ∧ u_nsp b = u_nsp a ∧ u_client b = u_client a ∧ u_id b = u_id a ∧
    (k ∉ K → b = a) ∧ (k ∈ K → here b = false).
  Proof.
    rewrite depart_lookup. intros (a & Ea & ->)%fmap_Some. exists a. case_decide; done.
  Qed.
  Lemma ends_cons k K v n : ends (k :: K) v n = true ↔ ends [k] v n = true ∨ ends K (depart [k] v) n = true.
  Proof.
    rewrite !ends_spec. split.
    - intros (Hc & (j & a & Hj & Ej & Hn) & H2).
      destruct (somebody K v n) as [(i & b & Hi & Ei & Hb)|Hno].
      + right. split; [done|]. split.
        * exists i. rewrite depart_lookup, Ei. cbn. eexists. split; [done|]. split; [done|]. by case_decide.
        * intros l b' (b0 & El & En & _ & _ & E1 & E2)%depart_nsp Hl Hh. rewrite En.
          destruct (decide (l = k)) as [->|Hlk]; [rewrite E2 in Hh; [done|by apply elem_of_list_singleton]|].
          assert (b' = b0) as -> by (apply E1; by intros ->%elem_of_list_singleton). apply (H2 l b0 El); [|done].
          intros [?|?]%elem_of_cons; done.
      + left. split; [done|]. split.
        * exists j, a. split; [|done]. apply elem_of_cons in Hj as [->|Hj]; [by apply elem_of_list_singleton|]. by destruct (Hno j a Hj Ej).
        * intros l b El Hl Hh. destruct (decide (l ∈ K)) as [Hlk|Hlk]; [by apply (Hno l b)|]. apply (H2 l b El); [|done].
          intros [->|?]%elem_of_cons; [|done]. apply Hl. by apply elem_of_list_singleton.
    - intros [(Hc & (j & a & ->%elem_of_list_singleton & Ej & Hn) & H2)|(Hc & (j & b & Hj & (a & Ej & En & _)%depart_nsp & Hn) & H2)]; (split; [done|]); split.
      + exists k, a. split; [|done]. apply elem_of_cons. by left.
      + intros l b El Hl Hh. apply (H2 l b El); [|done]. intros ->%elem_of_list_singleton. apply Hl, elem_of_cons. by left.
      + exists j, a. split; [apply elem_of_cons; by right|]. split; [done|]. by rewrite <- En.
      + intros l c El Hl Hh. apply (H2 l c); [|by intros ?; apply Hl, elem_of_cons; right|done].
        rewrite depart_lookup, El. cbn. rewrite decide_False; [done|]. intros ->%elem_of_list_singleton. apply Hl, elem_of_cons. by left.
  Qed.
  Lemma depart_cons k K v : depart (k :: K) v = depart K (depart [k] v).
  Proof.
    assert (∀ m, m ∈ ended_names (k :: K) v ↔ m ∈ ended_names [k] v ∨ m ∈ ended_names K (depart [k] v)) as Em.
    { intros m. rewrite !elem_of_ended. split.
      - intros (n & np & H1 & H2 & H3 & [H|H]%ends_cons); [left|right]; by exists n, np.
      - intros [(n & np & H1 & H2 & H3 & H)|(n & np & H1 & H2 & H3 & H)]; exists n, np; (split_and!; [done..|]); apply ends_cons; [by left|by right]. }
    etrans; [apply (depart_eq _ _ (us_socks (depart K (depart [k] v))) (us_parents (depart K (depart [k] v))) (us_names (depart K (depart [k] v))))|done].
    - apply list_eq. intros j. rewrite !depart_lookup, without_lookup. destruct (us_socks v !! j) as [a|]; [|done]. cbn. f_equal.
      destruct (decide (j ∈ k :: K)) as [Hj|Hj].
      + apply elem_of_cons in Hj as [->|Hj].
        * rewrite (decide_True (P := k ∈ [k])) by (by apply elem_of_list_singleton). by case_decide.
        * rewrite decide_True by done. by case_decide.
      + rewrite decide_False by (intros ?; apply Hj, elem_of_cons; by right). rewrite decide_False; [done|].
        intros ->%elem_of_list_singleton. apply Hj, elem_of_cons. by left.
    - intros m. rewrite !depart_names. specialize (Em m). destruct (decide (m ∈ ended_names (k :: K) v)) as [H|H].
      + case_decide as H1; [done|]. case_decide as H2; [done|]. apply Em in H as [?|?]; done.
      + rewrite decide_False by (intros H1; apply H, Em; by right). rewrite decide_False by (intros H1; apply H, Em; by left). done.
    - intros p. rewrite !depart_parents. destruct (us_parents v !! p) as [q|]; [|done]. cbn. f_equal. unfold pa_set_children. cbn. f_equal.
      apply set_eq. intros n. rewrite !elem_of_filter. split.
      + intros (H1 & H2 & H3). split; [|done]. intros [[H|H]%ends_cons H0]; [by apply H2|by apply H1].
      + intros (H1 & H2). split_and!; [..|done]; intros [H H0]; apply H1; (split; [|exact H0]); apply ends_cons; [by right|by left].
  Qed.
  Lemma depart_nil v : depart [] v = v.
  Proof.
    destruct v as [so cl ns pa na ta]. apply depart_eq; cbn [us_socks us_names us_parents].
    - apply list_eq. intros k. rewrite without_lookup. cbn [us_socks]. destruct (so !! k); cbn; [|done]. rewrite decide_False; [done|]. apply not_elem_of_nil.
    - intros m. rewrite decide_False; [done|]. intros (n & np & _ & _ & _ & H)%elem_of_ended. apply ends_spec in H as (_ & (k & a & Hk & _) & _). by apply elem_of_nil in Hk.
    - intros p. destruct (pa !! p) as [q|]; [|done]. cbn. f_equal. destruct q as [m ch on fn]. unfold pa_set_children. cbn. f_equal.
      apply set_eq. intros n. rewrite elem_of_filter. split; [|naive_solver]. intros Hn. split; [|done].
      intros [H _]. apply ends_spec in H as (_ & (k & a & Hk & _) & _). by apply elem_of_nil in Hk.
  Qed.
End abs.

(** ** The visible part of the states *)
Section sim.
  Context (csr skip clean : bool).
  Notation onclose := (onclose csr clean).
  Notation cleanup := (cleanup clean).
  Notation reaps := (reaps clean).
  Notation depart := (depart clean).
  Notation ends := (ends clean).
  Notation ended_names := (ended_names clean).
  Notation child_ends := (child_ends clean).
  Notation u_close := (u_close csr clean).
  Notation bye := (bye csr).
  Notation seen_client := (λ cl, UClient (cl_id cl) (cl_p3 cl) (cl_open cl) (cl_timer cl)).
  Notation seen_nsp := (λ np, UNsp (np_name np) (np_parent np) (np_on np) (np_fns np)).

  Lemma seen_lookup x k : us_socks (seen x) !! k = seen_sock x <$> c_socks x !! k.
  Proof. apply list_lookup_fmap. Qed.
  Lemma seen_lookup_Some x k b : us_socks (seen x) !! k = Some b ↔ ∃ a, c_socks x !! k = Some a ∧ b = seen_sock x a.
  Proof. rewrite seen_lookup, fmap_Some. done. Qed.
  Lemma here_seen x a : here (seen_sock x a) = sk_connected a.
  Proof. unfold here, seen_sock. cbn. destruct (sk_connected a); [done|]. by destruct (sk_can_join a). Qed.
  Lemma open_seen x c : u_open (seen x) c = is_open x c.
  Proof. unfold u_open, is_open. cbn. rewrite list_lookup_fmap. by destruct (c_clients x !! c). Qed.
  Lemma name_seen x n : u_name (seen x) n = name_of x n.
  Proof. unfold u_name, name_of. cbn. rewrite list_lookup_fmap. by destruct (c_nsps x !! n). Qed.
  Lemma is_here_seen x k : is_here (seen x) k = match c_socks x !! k with Some a => sk_connected a | None => false end.
  Proof. unfold is_here. rewrite seen_lookup. destruct (c_socks x !! k); cbn; [apply here_seen|done]. Qed.
  Lemma nsps_lookup x n : us_nsps (seen x) !! n = seen_nsp <$> c_nsps x !! n.
  Proof. apply list_lookup_fmap. Qed.

  (** A namespace is reaped when it ends. *)
  Lemma reaps_ends x k a m p : invPC x → c_socks x !! k = Some a → sk_can_join a = true →
    reaps a x = Some (m, p) ↔ ∃ np, c_nsps x !! sk_nsp a = Some np ∧ np_parent np = Some p ∧ np_name np = m ∧ ends [k] (seen x) (sk_nsp a) = true.
  Proof.
    intros [A I P N] Ek Ej. unfold SystemProofs.reaps. destruct (c_nsps x !! sk_nsp a) as [np|] eqn:En; [|naive_solver].
    assert (bool_decide (delete (sk_id a) (np_sockets np) = ∅) = true ↔ ∀ j b, c_socks x !! j = Some b → j ≠ k → sk_connected b = true → sk_nsp b ≠ sk_nsp a) as Hd.
    { rewrite bool_decide_eq_true. split.
      - intros E j b Eb Hj Hc Hn. destruct (N j b Eb Hc) as (N1 & _). rewrite Hn in N1. unfold socks_of in N1. rewrite En in N1.
        assert (delete (sk_id a) (np_sockets np) !! sk_id b = Some j) as E1; [|by rewrite E in E1].
        rewrite lookup_delete_ne; [done|]. destruct (P j k b a Hj Eb Ek) as [H _]; [by eapply (ia_live _ A)|done|]. done.
      - intros H. apply map_eq. intros i. rewrite lookup_empty. destruct (delete (sk_id a) (np_sockets np) !! i) as [j|] eqn:E; [|done]. exfalso.
        apply lookup_delete_Some in E as [Hi E]. destruct (ia_nsock _ A (sk_nsp a) i j) as (b & Eb & Hid & Hn & Hc); [unfold socks_of; by rewrite En|].
        apply (H j b); try done. intros ->. congruence. }
    assert (ends [k] (seen x) (sk_nsp a) = true ↔ clean = true ∧ ∀ j b, c_socks x !! j = Some b → j ≠ k → sk_connected b = true → sk_nsp b ≠ sk_nsp a) as He.
    { rewrite ends_spec. split.
      - intros (Hc & _ & H). split; [done|]. intros j b Eb Hj Hb Hn. apply (H j (seen_sock x b)); [|by intros ?%elem_of_list_singleton| |done].
        + rewrite seen_lookup, Eb. done.
        + by rewrite here_seen.
      - intros [Hc H]. split; [done|]. split.
        + exists k, (seen_sock x a). split; [by apply elem_of_list_singleton|]. split; [|done]. by rewrite seen_lookup, Ek.
        + intros j b (b0 & Eb & ->)%seen_lookup_Some Hj Hb. rewrite here_seen in Hb. apply (H j b0); try done. intros ->. apply Hj. by apply elem_of_list_singleton. }
    destruct (np_parent np) as [p'|] eqn:Ep.
    - destruct (clean && bool_decide (delete (sk_id a) (np_sockets np) = ∅)) eqn:E.
      + apply andb_prop in E as [E1 E2]. split.
        * intros [= <- <-]. exists np. split_and!; try done. apply He. split; [done|]. by apply Hd.
        * intros (np' & E' & Ep' & Em & _). injection E' as <-. rewrite Ep in Ep'. congruence.
      + split; [done|]. intros (np' & E' & Ep' & Em & H). apply He in H as [-> H]. rewrite (proj2 Hd H) in E. done.
    - split; [done|]. intros (np' & E' & Ep' & Em & _). injection E' as <-. congruence.
  Qed.
  Lemma seen_drop os k a x y : invPC x → sords_ok os → c_socks x !! k = Some a → sk_can_join a = true →
    c_socks y = alter (sk_set false false) k (c_socks x) → c_nsps y = alter (drop os (sk_id a)) (sk_nsp a) (c_nsps x) →
    seen_client <$> c_clients y = seen_client <$> c_clients x → c_tasks y = c_tasks x →
    c_reg y = match reaps a x with Some (m, _) => delete m (c_reg x) | None => c_reg x end →
    c_parents y = match reaps a x with Some (_, p) => alter (λ q, pa_set_children (pa_children q ∖ {[sk_nsp a]}) q) p (c_parents x) | None => c_parents x end →
    seen y = depart [k] (seen x).
  Proof.
    intros PC Hos Ek Ej Es En Ec Et Er Ep. pose proof PC as [A I P N].
    assert (∀ n, ends [k] (seen x) n = true → n = sk_nsp a) as Hen.
    { intros n (_ & (j & b & ->%elem_of_list_singleton & Eb & Hn) & _)%ends_spec. rewrite seen_lookup, Ek in Eb. injection Eb as <-. done. }
    symmetry. etrans; [apply (depart_eq clean [k] (seen x) (us_socks (seen y)) (us_parents (seen y)) (us_names (seen y)))|].
    - apply list_eq. intros j. rewrite seen_lookup, without_lookup, seen_lookup, Es, alter_lookup. case_decide as Hj.
      + subst j. rewrite Ek. cbn. rewrite decide_True by (by apply elem_of_list_singleton). done.
      + destruct (c_socks x !! j) as [b|] eqn:Eb; [|done]. cbn. rewrite decide_False by (by intros ?%elem_of_list_singleton). f_equal.
        unfold seen_sock. f_equal. destruct (sk_can_join b) eqn:Ebj; [|done]. unfold reg_of. rewrite En, alter_lookup. case_decide as Hn; [|done].
        destruct (c_nsps x !! sk_nsp b) as [np|]; [|done]. cbn. apply set_eq. intros r. rewrite del_all_rooms_of.
        destruct (P j k b a Hj Eb Ek Ebj Ej) as [Hid _]. naive_solver.
    - intros m. cbn [seen us_names]. rewrite Er. destruct (reaps a x) as [[m' p]|] eqn:E.
      + apply (reaps_ends x k a m' p PC Ek Ej) in E as (np & Hnp & Hpa & Hnm & He). case_decide as Hd.
        * apply elem_of_ended in Hd as (n & np' & Hn' & <- & Hp' & He'). apply Hen in He' as ->. rewrite nsps_lookup, Hnp in Hn'. injection Hn' as <-. cbn. rewrite Hnm. apply lookup_delete.
        * apply lookup_delete_ne. intros <-. apply Hd. apply elem_of_ended. exists (sk_nsp a). rewrite nsps_lookup, Hnp. eexists. split; [done|]. cbn. rewrite Hpa. done.
      + case_decide as Hd; [|done]. exfalso. apply elem_of_ended in Hd as (n & np' & Hn' & <- & [p Hp'] & He'). pose proof (Hen _ He') as ->. rewrite nsps_lookup in Hn'.
        apply fmap_Some in Hn' as (np & Hnp & ->). cbn in *. assert (reaps a x = Some (np_name np, p)) as E2; [|congruence].
        apply (reaps_ends x k a _ p PC Ek Ej). by exists np.
    - intros p. cbn [seen us_parents]. rewrite Ep. destruct (reaps a x) as [[m' p']|] eqn:E.
      + apply (reaps_ends x k a m' p' PC Ek Ej) in E as (np & Hnp & Hpa & Hnm & He). rewrite alter_lookup. destruct (c_parents x !! p) as [q|]; [|by case_decide]. case_decide as Hd.
        * subst p'. cbn. f_equal. unfold pa_set_children. f_equal. apply set_eq. intros n. rewrite elem_of_difference, elem_of_filter, elem_of_singleton. split.
          -- intros [H1 H2]. split; [|done]. intros [H%Hen _]. done.
          -- intros [H1 H2]. split; [done|]. intros ->. apply H1. split; [done|]. rewrite nsps_lookup, Hnp. eexists. split; [done|]. done.
        * cbn. f_equal. destruct q as [mm ch on fn]. unfold pa_set_children. cbn. f_equal. apply set_eq. intros n. rewrite elem_of_filter. split; [|naive_solver].
          intros Hn. split; [|done]. intros [H%Hen (np' & Hn' & Hp')]. subst n. rewrite nsps_lookup, Hnp in Hn'. injection Hn' as <-. cbn in Hp'. congruence.
      + destruct (c_parents x !! p) as [q|]; [|done]. cbn. f_equal. destruct q as [mm ch on fn]. unfold pa_set_children. cbn. f_equal. apply set_eq. intros n. rewrite elem_of_filter. split; [|naive_solver].
        intros Hn. split; [|done]. intros [H (np' & Hn' & Hp')]. pose proof (Hen _ H) as ->. rewrite nsps_lookup in Hn'. apply fmap_Some in Hn' as (np & Hnp & ->). cbn in Hp'.
        assert (reaps a x = Some (np_name np, p)) as E2; [|congruence]. apply (reaps_ends x k a _ p PC Ek Ej). by exists np.
    - transitivity (UServer (us_socks (seen y)) (us_clients (seen y)) (us_nsps (seen y)) (us_parents (seen y)) (us_names (seen y)) (us_tasks (seen y))); [|done].
      f_equal.
      + cbn. by rewrite Ec.
      + cbn. rewrite En. apply list_eq. intros n. rewrite !list_lookup_fmap, alter_lookup. case_decide; [|done]. by destruct (c_nsps x !! n).
      + cbn. by rewrite Et.
  Qed.
  Lemma seen_onclose os r k a s : invPC s.1 → sords_ok os → c_socks s.1 !! k = Some a → sk_connected a = true → seen (onclose os r k s).1 = depart [k] (seen s.1).
  Proof.
    intros PC Hos Ek Ec. apply (seen_drop os k a); try done.
    - by eapply (ia_live _ (pc_a _ PC)).
    - by rewrite (onclose_socks csr clean _ _ _ a).
    - by rewrite (onclose_nsps csr clean _ _ _ a).
    - apply list_eq. intros c. rewrite !list_lookup_fmap. destruct (c_clients (onclose os r k s).1 !! c) as [cl|] eqn:E.
      + destruct (onclose_clients _ _ _ _ _ _ _ _ E) as (cl0 & -> & E1 & E2 & E3 & E4 & _). cbn. by rewrite E1, E2, E3, E4.
      + apply lookup_ge_None in E. rewrite onclose_clients_length in E. apply lookup_ge_None in E. by rewrite E.
    - apply onclose_tasks.
    - by rewrite (onclose_reg csr clean _ _ _ a).
    - by rewrite (onclose_parents csr clean _ _ _ a).
  Qed.
  Lemma seen_cleanup os k a s : invPC s.1 → sords_ok os → c_socks s.1 !! k = Some a → sk_connected a = false → sk_can_join a = true →
    seen (cleanup os k s).1 = depart [k] (seen s.1).
  Proof.
    intros PC Hos Ek Ec Ej. apply (seen_drop os k a); try done.
    - rewrite cleanup_socks. apply list_eq. intros j. rewrite !alter_lookup. case_decide; [|done]. subst. rewrite Ek. cbn. by rewrite Ec.
    - by rewrite (cleanup_nsps clean _ _ a).
    - by rewrite cleanup_clients.
    - apply cleanup_tasks.
    - by rewrite (cleanup_reg clean _ _ a).
    - by rewrite (cleanup_parents clean _ _ a).
  Qed.

  (** ** Simulation.  [L]: the log when the step starts. *)
  Definition sim (L : list (core * eff)) (s : sys) (u : ustate) : Prop := seen s.1 = u.1 ∧ ∃ l, s.2 = L ++ l ∧ l.*2 ≡ₚ u.2.
  Lemma sim_step L s u s' l v e : sim L s u → s'.2 = s.2 ++ l → seen s'.1 = v → l.*2 ≡ₚ e → sim L s' (v, u.2 ++ e).
  Proof. intros (_ & l0 & E0 & Hp) E Hv Hl. split; [done|]. exists (l0 ++ l). split; [by rewrite E, E0, app_assoc|]. rewrite fmap_app. by apply Permutation_app. Qed.
  Lemma sim_perm L s u u' : sim L s u → u'.1 = u.1 → u.2 ≡ₚ u'.2 → sim L s u'.
  Proof. intros (H & l & E & Hp) E1 E2. split; [by rewrite E1|]. exists l. split; [done|]. by rewrite Hp. Qed.
  Lemma sim_log L s u e : sim L s u → sim L (log e s) (say e u).
  Proof. intros H. apply (sim_step L s u (log e s) [(s.1, e)] u.1 [e] H); try done. by destruct H. Qed.
  Lemma sim_core L s u f g : sim L s u → seen (f s.1) = g (seen s.1) → sim L (on_core f s) (on_u g u).
  Proof. intros (H & l & E & Hp) H2. split; [cbn; by rewrite H2, H|]. by exists l. Qed.
  Lemma sim_write L s u c p : sim L s u → sim L (write c p s) (u_write c p u).
  Proof. intros H. unfold write, u_write. rewrite <- (proj1 H), open_seen. destruct (is_open s.1 c); [by apply sim_log|done]. Qed.
  Lemma sim_packet L s u k ty d : sim L s u → sim L (sock_packet k ty d s) (u_packet ty d u k).
  Proof.
    intros H. unfold sock_packet, u_packet. rewrite <- (proj1 H), seen_lookup. destruct (c_socks s.1 !! k) as [a|]; [|done]. cbn [fmap option_fmap option_map].
    rewrite name_seen. by apply sim_write.
  Qed.
  (** Packets as a list. *)
  Definition packets (ty : ptype) (d : list value) (v : userver) (k : nat) : list eff :=
    match us_socks v !! k with
    | Some a => if u_open v (u_client a) then [EWrite (u_client a) (Packet ty (u_name v (u_nsp a)) d None)] else []
    | None => []
    end.
  Lemma u_packet_eq ty d u k : u_packet ty d u k = (u.1, u.2 ++ packets ty d u.1 k).
  Proof.
    unfold u_packet, packets, u_write, say. destruct (us_socks u.1 !! k) as [a|]; [|by rewrite app_nil_r; destruct u].
    destruct (u_open u.1 (u_client a)); [done|]. by rewrite app_nil_r; destruct u.
  Qed.
  Lemma u_packets_eq ty d K u : foldl (u_packet ty d) u K = (u.1, u.2 ++ K ≫= packets ty d u.1).
  Proof.
    revert u. induction K as [|k K IH]; intros u; cbn [foldl]; [cbn; by rewrite app_nil_r; destruct u|]. rewrite u_packet_eq, IH. cbn. by rewrite <- app_assoc.
  Qed.
  Lemma packets_depart K ty d v k : packets ty d (depart K v) k = packets ty d v k.
  Proof.
    unfold packets. rewrite depart_lookup. destruct (us_socks v !! k) as [a|]; [|done]. cbn [fmap option_fmap option_map].
    assert (u_client (if decide (k ∈ K) then be Gone ∅ a else a) = u_client a) as -> by (by case_decide).
    assert (u_nsp (if decide (k ∈ K) then be Gone ∅ a else a) = u_nsp a) as -> by (by case_decide). done.
  Qed.

  (** Closing one socket after the other; [d]: a DISCONNECT packet is sent. *)
  Definition close_eff (d : bool) (r : string) (v : userver) (k : nat) : list eff := (if d then packets DISCONNECT [] v k else []) ++ bye r k.
  Definition close1 (d : bool) (os : sords) (r : string) (s : sys) (k : nat) : sys :=
    onclose os r k (if d then sock_packet k DISCONNECT [] s else s).
  Lemma close1_pre (d : bool) k (s : sys) : (if d then sock_packet k DISCONNECT [] s else s).1 = s.1.
  Proof. destruct d; [apply sock_packet_core|done]. Qed.
  Lemma sim_onclose L os r k a s u : invPC s.1 → sords_ok os → c_socks s.1 !! k = Some a → sk_connected a = true → sim L s u →
    sim L (onclose os r k s) (depart [k] u.1, u.2 ++ bye r k).
  Proof.
    intros PC Hos Ek Ec H. eapply sim_step; [exact H|by apply (onclose_log csr clean os r k a s)| |].
    - rewrite (seen_onclose _ _ _ a) by done. by rewrite (proj1 H).
    - unfold close_logs, ServerSpec.bye. cbn. destruct (csr && _); done.
  Qed.
  Lemma onclose_PC os r k s : invPC s.1 → sords_ok os → invPC (onclose os r k s).1.
  Proof. intros PC Hos. eapply (crtc_PC csr clean (λ _ _, True)); [by apply onclose_prims|done]. Qed.
  Lemma close1_PC d os r k s : invPC s.1 → sords_ok os → invPC (close1 d os r s k).1.
  Proof. intros PC Hos. unfold close1. apply onclose_PC; [|done]. by rewrite close1_pre. Qed.
  Lemma close1_socks d os r k a s : c_socks s.1 !! k = Some a → sk_connected a = true → c_socks (close1 d os r s k).1 = alter (sk_set false false) k (c_socks s.1).
  Proof. intros Ek Ec. unfold close1. rewrite (onclose_socks csr clean _ _ _ a) by (by rewrite ?close1_pre). by rewrite close1_pre. Qed.
  Lemma sim_close1 L d os r k a s u : invPC s.1 → sords_ok os → c_socks s.1 !! k = Some a → sk_connected a = true → sim L s u →
    sim L (close1 d os r s k) (depart [k] u.1, u.2 ++ close_eff d r u.1 k).
  Proof.
    intros PC Hos Ek Ec H. unfold close1, close_eff. rewrite app_assoc.
    assert (sim L (if d then sock_packet k DISCONNECT [] s else s) (u.1, u.2 ++ if d then packets DISCONNECT [] u.1 k else [])) as H1.
    { destruct d.
      - apply (sim_packet L s u k DISCONNECT []) in H. by rewrite u_packet_eq in H.
      - rewrite app_nil_r. by destruct u. }
    apply (sim_onclose L os r k a _ _) in H1; rewrite ?close1_pre; done.
  Qed.
  Lemma close_eff_depart d r K v k : close_eff d r (depart K v) k = close_eff d r v k.
  Proof. unfold close_eff. by rewrite packets_depart. Qed.
  Lemma closes_PC d os r (ks : list nat) s : invPC s.1 → sords_ok os → invPC (foldl (close1 d os r) s ks).1.
  Proof. revert s. induction ks as [|k ks IH]; intros s PC Hos; [done|]. cbn. apply IH; [|done]. by apply close1_PC. Qed.
  Lemma sim_closes L d os r (ks : list nat) s u : invPC s.1 → sords_ok os → NoDup ks → (∀ k, k ∈ ks → connected s.1 k) → sim L s u →
    sim L (foldl (close1 d os r) s ks) (depart ks u.1, u.2 ++ ks ≫= close_eff d r u.1).
  Proof.
    intros PC Hos. revert s u PC. induction ks as [|k ks IH]; intros s u PC Hnd Hc H; cbn [foldl].
    - cbn. rewrite app_nil_r, depart_nil. by destruct u.
    - apply NoDup_cons in Hnd as [Hk Hnd]. destruct (Hc k) as (a & Ek & Ec); [apply elem_of_cons; by left|].
      eapply sim_perm; [apply (IH (close1 d os r s k) (depart [k] u.1, u.2 ++ close_eff d r u.1 k))|..].
      + by apply close1_PC.
      + done.
      + intros j Hj. destruct (Hc j) as (b & Eb & Hb); [apply elem_of_cons; by right|]. exists b. split; [|done].
        rewrite (close1_socks _ _ _ _ a), list_lookup_alter_ne by (done || congruence). done.
      + by apply (sim_close1 L d os r k a).
      + cbn [fst]. by rewrite <- depart_cons.
      + cbn. rewrite <- app_assoc. do 2 f_equiv. clear. induction ks as [|j ks IH]; [done|]. cbn. rewrite IH, close_eff_depart. done.
  Qed.
  Lemma closes_perm d r (ks K : list nat) v e : ks ≡ₚ K → depart ks v = depart K v ∧ e ++ ks ≫= close_eff d r v ≡ₚ e ++ K ≫= close_eff d r v.
  Proof. intros E. split; [apply depart_ext; intros k; by rewrite E|]. f_equiv. by rewrite E. Qed.
  (** The sockets of a connection. *)
  Lemma range_loop_closes d os r c f l s : (∀ k a (s : sys), c_socks s.1 !! k = Some a → sk_connected a = true → f k s = close1 d os r s k) →
    sords_ok os → invPC s.1 → NoDup l →
    foldl (λ s i, match csocks_of s.1 c !! i with Some k => f k s | None => s end) s l = foldl (close1 d os r) s (omap (λ i, csocks_of s.1 c !! i) l).
  Proof.
    intros Hf Hos. revert s. induction l as [|i l IH]; intros s PC Hnd; [done|]. apply NoDup_cons in Hnd as [Hi Hnd]. cbn [foldl omap list_omap].
    destruct (csocks_of s.1 c !! i) as [k|] eqn:Ei; [|by apply IH].
    destruct (ia_csock _ (pc_a _ PC) _ _ _ Ei) as (a & Ek & Eid & Ecl & Ecn). cbn [foldl]. rewrite (Hf k a s Ek Ecn).
    rewrite IH; [|by apply close1_PC|done]. f_equal. apply list_omap_ext.
    assert (csocks_of (close1 d os r s k).1 c = delete i (csocks_of s.1 c)) as E.
    { unfold close1. rewrite (onclose_csocks csr clean _ _ _ a) by (by rewrite ?close1_pre). rewrite close1_pre, decide_True by done. by rewrite Eid. }
    apply Forall_Forall2_diag, Forall_forall. intros j Hj. rewrite E, lookup_delete_ne; [done|]. by intros ->.
  Qed.
  Lemma conn_table os c (s : sys) : sords_ok os → invPC s.1 →
    omap (λ i, csocks_of s.1 c !! i) (so_client os c (dom (csocks_of s.1 c))) ≡ₚ those (of_conn c) (seen s.1).
  Proof.
    intros Hos PC. set (l := so_client os c (dom (csocks_of s.1 c))).
    assert (NoDup l) as Hnd by (apply order_NoDup, Hos).
    apply NoDup_Permutation; [|apply those_NoDup|].
    - clear -PC Hnd. induction l as [|i l IH]; [constructor|]. apply NoDup_cons in Hnd as [Hi Hnd]. cbn.
      destruct (csocks_of s.1 c !! i) as [k|] eqn:E; [|by apply IH]. apply NoDup_cons. split; [|by apply IH].
      intros (j & Hj & Ej)%elem_of_list_omap. destruct (ia_csock _ (pc_a _ PC) _ _ _ E) as (a & Ea & Hia & _).
      destruct (ia_csock _ (pc_a _ PC) _ _ _ Ej) as (b & Eb & Hib & _). assert (a = b) as <- by congruence. by subst.
    - intros k. rewrite elem_of_list_omap, elem_of_those. unfold of_conn. split.
      + intros (i & Hi & E). destruct (ia_csock _ (pc_a _ PC) _ _ _ E) as (a & Ea & Hia & Hc & Hcn). exists (seen_sock s.1 a).
        rewrite seen_lookup, Ea, here_seen, Hcn. split; [done|]. by apply bool_decide_eq_true.
      + intros (b & (a & Ea & ->)%seen_lookup_Some & [Hh Hb]%andb_prop). rewrite here_seen in Hh. apply bool_decide_eq_true in Hb. cbn in Hb.
        destruct (pc_c _ PC k a Ea Hh) as (_ & N2 & _). rewrite Hb in N2. exists (sk_id a). split; [|done]. apply order_elem; [apply Hos|]. by apply elem_of_dom.
  Qed.
  Lemma range_closes d os r c f s : (∀ k a (s : sys), c_socks s.1 !! k = Some a → sk_connected a = true → f k s = close1 d os r s k) →
    sords_ok os → invPC s.1 →
    ∃ ks, ks ≡ₚ those (of_conn c) (seen s.1) ∧ range_client os c f s = foldl (close1 d os r) s ks ∧ (∀ k, k ∈ ks → connected s.1 k).
  Proof.
    intros Hf Hos PC. exists (omap (λ i, csocks_of s.1 c !! i) (so_client os c (dom (csocks_of s.1 c)))). split_and!.
    - by apply conn_table.
    - apply range_loop_closes; [done..|]. apply order_NoDup, Hos.
    - intros k (i & Hi & E)%elem_of_list_omap. destruct (ia_csock _ (pc_a _ PC) _ _ _ E) as (a & Ea & Hia & Hc & Hcn). by exists a.
  Qed.
  Lemma sim_range L d os r c f s u : (∀ k a (s : sys), c_socks s.1 !! k = Some a → sk_connected a = true → f k s = close1 d os r s k) →
    sords_ok os → invPC s.1 → sim L s u →
    let K := those (of_conn c) u.1 in sim L (range_client os c f s) (depart K u.1, u.2 ++ K ≫= close_eff d r u.1) ∧ invPC (range_client os c f s).1.
  Proof.
    intros Hf Hos PC H. cbv zeta. rewrite <- (proj1 H). destruct (range_closes d os r c f s Hf Hos PC) as (ks & Hp & E & Hc). rewrite E. split.
    - destruct (closes_perm d r ks _ (seen s.1) u.2 Hp) as [E1 E2].
      eapply sim_perm; [apply (sim_closes L d os r ks s u); try done; rewrite Hp; apply those_NoDup|..]; cbn [fst snd]; rewrite <- (proj1 H); [done|]. done.
    - by apply closes_PC.
  Qed.
  Lemma tables_sim L c f s u : (∀ cl, seen_client (f cl) = seen_client cl) → sim L s u → sim L (upd_client c f s) u.
  Proof.
    intros Hf (H & l & E). split; [|by exists l]. rewrite <- H. unfold seen. cbn. f_equal.
    apply list_eq. intros j. rewrite !list_lookup_fmap, alter_lookup. case_decide; [|done]. destruct (c_clients s.1 !! j); [|done]. cbn. f_equal. apply Hf.
  Qed.
  Lemma client_sim L c f g s u : (∀ cl, seen_client (f cl) = g (seen_client cl)) → sim L s u → sim L (upd_client c f s) (on_u (to_client c g) u).
  Proof.
    intros Hf H. apply sim_core; [done|]. unfold seen, to_client, with_clients. cbn. f_equal.
    apply list_eq. intros j. rewrite !list_lookup_fmap, !alter_lookup, list_lookup_fmap. case_decide; [|done]. destruct (c_clients s.1 !! j); [|done]. cbn. f_equal. apply Hf.
  Qed.
  Lemma client_PC c f s : (∀ cl, cl_sockets (f cl) = cl_sockets cl ∧ cl_nsps (f cl) = cl_nsps cl) → invPC s.1 → invPC (upd_client c f s).1.
  Proof.
    intros Hf [A I P N]. split.
    - apply invA_set_client; [|done]. intros cl. apply Hf.
    - exact I.
    - exact P.
    - intros k a Ek Ec. destruct (N k a Ek Ec) as (N1 & N2 & N3). split_and!; [done|..]; cbn.
      + rewrite csocks_alter; [done|]. intros cl. apply Hf.
      + rewrite cnsps_alter; [done|]. intros cl. apply Hf.
  Qed.
  Lemma clear_PC c s : invPC s.1 → those (of_conn c) (seen s.1) = [] → invPC (upd_client c (λ cl, cl_set_tables ∅ (cl_nsps cl) cl) s).1.
  Proof.
    intros PC Hn. rewrite clear_empty; [done|]. apply map_eq. intros i. rewrite lookup_empty. destruct (csocks_of s.1 c !! i) as [k|] eqn:E; [|done]. exfalso.
    destruct (ia_csock _ (pc_a _ PC) _ _ _ E) as (a & Ea & Hia & Hc & Hcn).
    assert (k ∈ those (of_conn c) (seen s.1)) as Hin; [|rewrite Hn in Hin; by apply elem_of_nil in Hin].
    apply elem_of_those. exists (seen_sock s.1 a). rewrite seen_lookup, Ea. unfold of_conn. rewrite here_seen, Hcn. split; [done|]. by apply bool_decide_eq_true.
  Qed.
  Lemma those_depart_none c v : those (of_conn c) (depart (those (of_conn c) v) v) = [].
  Proof.
    destruct (those (of_conn c) (depart (those (of_conn c) v) v)) as [|k l] eqn:E; [done|]. exfalso.
    assert (k ∈ those (of_conn c) (depart (those (of_conn c) v) v)) as H by (rewrite E; apply elem_of_cons; by left).
    apply elem_of_those in H as (b & (a & Ea & En & Ecl & _ & E1 & E2)%depart_nsp & Hb). unfold of_conn in Hb. apply andb_prop in Hb as [Hh Hb].
    destruct (decide (k ∈ those (of_conn c) v)) as [Hk|Hk].
    - rewrite E2 in Hh; done.
    - rewrite E1 in * by done. apply Hk, elem_of_those. exists a. split; [done|]. unfold of_conn. by rewrite Hh, Hb.
  Qed.
  Lemma sim_conn_closed L os c r s u : sords_ok os → invPC s.1 → sim L s u →
    sim L (client_onclose csr clean os c r s) (u_conn_closed csr clean c r u) ∧ invPC (client_onclose csr clean os c r s).1.
  Proof.
    intros Hos PC H. unfold client_onclose, u_conn_closed.
    apply (client_sim L c cl_no_timer no_timer) in H; [|done].
    assert (invPC (upd_client c cl_no_timer s).1) as PC1 by (by apply client_PC).
    destruct (sim_range L false os r c (onclose os r) _ _ (λ _ _ _ _ _, eq_refl) Hos PC1 H) as [H2 PC2].
    split.
    - apply tables_sim; [done|]. exact H2.
    - apply clear_PC; [done|]. rewrite (proj1 H2). apply those_depart_none.
  Qed.
  Lemma sim_hangup L c s u : sim L s u → sim L (hangup c s) (u_hangup c u).
  Proof. intros H. unfold hangup, u_hangup. apply client_sim; [done|]. by apply sim_log. Qed.
  Lemma hangup_PC c s : invPC s.1 → invPC (hangup c s).1.
  Proof. intros PC. unfold hangup. by apply client_PC. Qed.
  Lemma sim_conn_close L os c s u : sords_ok os → invPC s.1 → sim L s u →
    sim L (client_close csr clean os c s) (u_conn_close csr clean u c) ∧ invPC (client_close csr clean os c s).1.
  Proof.
    intros Hos PC H. unfold client_close, u_conn_close. rewrite <- (proj1 H), open_seen. destruct (is_open s.1 c); [|done].
    apply sim_conn_closed; [done|by apply hangup_PC|by apply sim_hangup].
  Qed.

  (** ** Disconnect *)
  Notation snd_reason := "server namespace disconnect".
  Notation u_disconnect := (u_disconnect csr clean).
  Notation u_disconnect_conns := (u_disconnect_conns csr clean).
  Lemma bind_app_perm {A B} (f g : A → list B) l : (l ≫= f) ++ (l ≫= g) ≡ₚ l ≫= (λ x, f x ++ g x).
  Proof.
    induction l as [|x l IH]; [done|]. cbn. rewrite <- IH, <- !app_assoc. f_equiv. rewrite !app_assoc. f_equiv. apply Permutation_app_comm.
  Qed.
  Lemma u_disconnect_1 K u : (u_disconnect K u).1 = depart K u.1.
  Proof. unfold ServerSpec.u_disconnect, ServerSpec.u_close. by rewrite u_packets_eq. Qed.
  Lemma u_disconnect_2 K u : (u_disconnect K u).2 ≡ₚ u.2 ++ K ≫= close_eff true snd_reason u.1.
  Proof. unfold ServerSpec.u_disconnect, ServerSpec.u_close. rewrite u_packets_eq. cbn [fst snd]. rewrite <- app_assoc. f_equiv. apply bind_app_perm. Qed.
  Lemma sim_disconnect L os (ks K : list nat) s u : invPC s.1 → sords_ok os → NoDup ks → (∀ k, k ∈ ks → connected s.1 k) → ks ≡ₚ K → sim L s u →
    sim L (foldl (λ s k, disconnect csr clean os k s) s ks) (u_disconnect K u).
  Proof.
    intros PC Hos Hnd Hc Hp H.
    assert (foldl (λ s k, disconnect csr clean os k s) s ks = foldl (close1 true os snd_reason) s ks) as ->.
    { clear -Hc Hnd. revert s Hc. induction ks as [|k ks IH]; intros s Hc; [done|]. apply NoDup_cons in Hnd as [Hk Hnd]. cbn [foldl].
      destruct (Hc k) as (a & Ek & Ec); [apply elem_of_cons; by left|]. assert (disconnect csr clean os k s = close1 true os snd_reason s k) as ->.
      { unfold disconnect. by rewrite Ek, Ec. }
      apply IH; [done|]. intros j Hj. destruct (Hc j) as (b & Eb & Hb); [apply elem_of_cons; by right|]. exists b. split; [|done].
      rewrite (close1_socks _ _ _ _ a), list_lookup_alter_ne by (done || congruence). done. }
    eapply sim_perm; [by apply (sim_closes L true os snd_reason ks s u)|..]; cbn [fst snd].
    - rewrite u_disconnect_1. apply depart_ext. intros k. by rewrite Hp.
    - rewrite u_disconnect_2. f_equiv. by rewrite Hp.
  Qed.
  (** The connections [cs]. *)
  Definition mates (cs : list nat) (v : userver) : list nat := those (λ a, here a && bool_decide (u_client a ∈ cs)) v.
  Definition hung (cs : list nat) (v : userver) : list nat := filter (u_open v) cs.
  Definition dcS (cs : list nat) (v : userver) : userver :=
    with_clients (imap (λ c cl, if decide (c ∈ hung cs v) then no_timer (shut cl) else cl) (us_clients v)) (depart (mates cs v) v).
  Definition dcE (cs : list nat) (v : userver) : list eff := (mates cs v ≫= close_eff true snd_reason v) ++ (EHangup <$> hung cs v).
  Lemma u_disconnect_conns_1 cs u : (u_disconnect_conns cs u).1 = dcS cs u.1.
  Proof. unfold ServerSpec.u_disconnect_conns. cbn [fst]. rewrite u_disconnect_1. done. Qed.
  Lemma u_disconnect_conns_2 cs u : (u_disconnect_conns cs u).2 ≡ₚ u.2 ++ dcE cs u.1.
  Proof. unfold ServerSpec.u_disconnect_conns. cbn [snd]. rewrite u_disconnect_1, u_disconnect_2. by rewrite <- app_assoc. Qed.
  Lemma mates_one c v : mates [c] v = those (of_conn c) v.
  Proof.
    apply those_ext. intros k. destruct (us_socks v !! k) as [a|]; [|done]. cbn. unfold of_conn. do 2 f_equal. apply bool_decide_ext. apply elem_of_list_singleton.
  Qed.
  Lemma elem_of_mates cs v k : k ∈ mates cs v ↔ ∃ a, us_socks v !! k = Some a ∧ here a = true ∧ u_client a ∈ cs.
  Proof. unfold mates. rewrite elem_of_those. setoid_rewrite andb_true_iff. by setoid_rewrite bool_decide_eq_true. Qed.
  Lemma depart_app K K' v : depart (K ++ K') v = depart K' (depart K v).
  Proof. revert v. induction K as [|k K IH]; intros v; [by rewrite depart_nil|]. cbn [app]. by rewrite depart_cons, IH, <- depart_cons. Qed.
  Lemma dc_open cs v c : c ∉ cs → u_open (dcS cs v) c = u_open v c.
  Proof.
    intros Hc. unfold u_open, dcS. cbn. rewrite list_lookup_imap. destruct (us_clients v !! c) as [cl|]; [|done]. cbn. rewrite decide_False; [done|].
    unfold hung. rewrite elem_of_list_filter. naive_solver.
  Qed.
  Lemma dc_lookup cs v k : us_socks (dcS cs v) !! k = (λ a, if decide (k ∈ mates cs v) then be Gone ∅ a else a) <$> us_socks v !! k.
  Proof. apply without_lookup. Qed.
  Lemma mates_cons c cs v : c ∉ cs → mates (c :: cs) v ≡ₚ mates [c] v ++ mates cs (dcS [c] v).
  Proof.
    intros Hc. apply NoDup_Permutation; [apply those_NoDup| |].
    - apply NoDup_app. split_and!; [apply those_NoDup| |apply those_NoDup].
      intros k H1 H2. apply elem_of_mates in H2 as (b & Eb & Hb & _). rewrite dc_lookup in Eb. apply fmap_Some in Eb as (a & Ea & ->). by rewrite decide_True in Hb.
    - intros k. rewrite elem_of_app, !elem_of_mates. split.
      + intros (a & Ea & Hh & [Hin|Hin]%elem_of_cons); [left|right].
        * exists a. split_and!; try done. by apply elem_of_list_singleton.
        * exists a. rewrite dc_lookup, Ea. cbn. rewrite decide_False; [done|]. intros (a' & Ea' & _ & Hin'%elem_of_list_singleton)%elem_of_mates. congruence.
      + intros [(a & Ea & Hh & Hin%elem_of_list_singleton)|(b & Eb & Hh & Hin)].
        * exists a. split_and!; try done. apply elem_of_cons. by left.
        * rewrite dc_lookup in Eb. apply fmap_Some in Eb as (a & Ea & ->). case_decide; [done|]. exists a. split_and!; try done. apply elem_of_cons. by right.
  Qed.
  Lemma hung_cons c cs v : c ∉ cs → hung (c :: cs) v = hung [c] v ++ hung cs (dcS [c] v).
  Proof.
    intros Hc. assert (hung cs (dcS [c] v) = hung cs v) as ->.
    { unfold hung. assert (∀ j, j ∈ cs → u_open (dcS [c] v) j = u_open v j) as H.
      { intros j Hj. apply dc_open. intros ->%elem_of_list_singleton. done. }
      clear Hc. induction cs as [|j cs IH]; [done|]. rewrite !filter_cons, H by (apply elem_of_cons; by left). rewrite IH; [done|]. intros i Hi. apply H, elem_of_cons. by right. }
    unfold hung. rewrite !filter_cons. by case_decide.
  Qed.
  Lemma bind_ext_in {A B} (f g : A → list B) l : (∀ x, x ∈ l → f x = g x) → l ≫= f = l ≫= g.
  Proof.
    induction l as [|x l IH]; intros H; [done|]. rewrite !bind_cons, H by (apply elem_of_cons; by left). rewrite IH; [done|]. intros y Hy. apply H, elem_of_cons. by right.
  Qed.
  Lemma dc_clients cs v j : us_clients (dcS cs v) !! j = (λ cl, if decide (j ∈ hung cs v) then no_timer (shut cl) else cl) <$> us_clients v !! j.
  Proof. unfold dcS. cbn [us_clients with_clients]. by rewrite list_lookup_imap. Qed.
  Lemma dcS_cons c cs v : c ∉ cs → dcS (c :: cs) v = dcS cs (dcS [c] v).
  Proof.
    intros Hc. assert (depart (mates (c :: cs) v) v = depart (mates cs (dcS [c] v)) (depart (mates [c] v) v)) as E.
    { rewrite <- depart_app. apply depart_ext. intros k. by rewrite (mates_cons c cs v Hc). }
    unfold dcS at 1. rewrite E. unfold dcS at 3.
    transitivity (with_clients (us_clients (dcS cs (dcS [c] v))) (depart (mates cs (dcS [c] v)) (depart (mates [c] v) v))); [|done]. f_equal.
    apply list_eq. intros j. rewrite list_lookup_imap, !dc_clients. destruct (us_clients v !! j) as [cl|]; [|done]. cbn [fmap option_fmap option_map]. f_equal.
    rewrite (hung_cons c cs v Hc). destruct (decide (j ∈ hung [c] v ++ hung cs (dcS [c] v))) as [Hj|Hj].
    - apply elem_of_app in Hj as [Hj|Hj].
      + rewrite (decide_True (P := j ∈ hung [c] v)) by done. by case_decide.
      + rewrite decide_True by done. by case_decide.
    - rewrite !decide_False; [done|..]; intros ?; apply Hj, elem_of_app; tauto.
  Qed.
  Lemma dcE_cons c cs v : c ∉ cs → dcE (c :: cs) v ≡ₚ dcE [c] v ++ dcE cs (dcS [c] v).
  Proof.
    intros Hc. unfold dcE. rewrite (hung_cons c cs v Hc), fmap_app.
    assert (mates cs (dcS [c] v) ≫= close_eff true snd_reason (dcS [c] v) = mates cs (dcS [c] v) ≫= close_eff true snd_reason v) as ->.
    { assert (∀ k, k ∈ mates cs (dcS [c] v) → close_eff true snd_reason (dcS [c] v) k = close_eff true snd_reason v k) as H.
      { intros k (b & Eb & _ & Hb)%elem_of_mates. unfold close_eff. f_equal. unfold packets. rewrite Eb. rewrite dc_lookup in Eb.
        apply fmap_Some in Eb as (a & Ea & ->). rewrite Ea. destruct (decide (k ∈ mates [c] v)) as [Hk|Hk].
        - apply elem_of_mates in Hk as (a' & Ea' & _ & Hin%elem_of_list_singleton). cbn in Hb. congruence.
        - rewrite dc_open; [done|]. intros Hin%elem_of_list_singleton. congruence. }
      by apply bind_ext_in. }
    rewrite (mates_cons c cs v Hc), bind_app. rewrite <- !app_assoc. f_equiv. rewrite !app_assoc. f_equiv. apply Permutation_app_comm.
  Qed.
  Lemma sim_client_disconnect L os c s u : sords_ok os → invPC s.1 → sim L s u →
    sim L (client_disconnect csr clean os c s) (dcS [c] u.1, u.2 ++ dcE [c] u.1) ∧ invPC (client_disconnect csr clean os c s).1.
  Proof.
    intros Hos PC H. unfold client_disconnect.
    destruct (sim_range L true os snd_reason c (disconnect csr clean os) s u) as [H1 PC1]; try done.
    { intros k a s' Ek Ec. unfold disconnect. by rewrite Ek, Ec. }
    cbv zeta in H1. set (s1 := range_client os c (disconnect csr clean os) s) in *. rewrite <- mates_one in H1.
    set (K := mates [c] u.1) in *. set (u1 := (depart K u.1, u.2 ++ K ≫= close_eff true snd_reason u.1)) in *.
    assert (those (of_conn c) u1.1 = []) as Hnone.
    { cbn. unfold K. rewrite mates_one. apply those_depart_none. }
    apply (tables_sim L c (λ cl, cl_set_tables ∅ (cl_nsps cl) cl)) in H1 as H2; [|done].
    assert (invPC (upd_client c (λ cl, cl_set_tables ∅ (cl_nsps cl) cl) s1).1) as PC2.
    { apply clear_PC; [done|]. by rewrite (proj1 H1). }
    destruct (sim_conn_close L os c _ _ Hos PC2 H2) as [H3 PC3]. split; [|done].
    assert (∀ cl, us_clients u.1 !! c = Some cl → u_open u.1 c = uc_open cl) as Ho by (intros cl E; unfold u_open; by rewrite E).
    assert (hung [c] u.1 = if u_open u.1 c then [c] else []) as Eh.
    { unfold hung. rewrite filter_cons. case_decide as Hd; destruct (u_open u.1 c); done. }
    eapply sim_perm; [exact H3|..]; unfold u_conn_close; change (u_open u1.1 c) with (u_open u.1 c).
    - destruct (u_open u.1 c) eqn:Eo; cbn [fst].
      + unfold u_conn_closed, ServerSpec.u_close. cbn [fst on_u]. rewrite (those_ext _ (of_conn c) _ u1.1), Hnone, depart_nil by done.
        unfold dcS. rewrite Eh. unfold to_client, with_clients. cbn. f_equal. apply list_eq. intros j. rewrite list_lookup_imap, !alter_lookup.
        destruct (us_clients u.1 !! j) as [cl|]; [|by repeat case_decide]. cbn.
        destruct (decide (j = c)) as [->|Hj]; cbn.
        * by rewrite decide_True by (by apply elem_of_list_singleton).
        * by rewrite decide_False by (by intros ?%elem_of_list_singleton).
      + unfold dcS. rewrite Eh. unfold with_clients. cbn [us_clients us_socks us_nsps us_names us_tasks us_parents u1 fst]. fold K. transitivity (UServer (us_socks (depart K u.1)) (us_clients (depart K u.1)) (us_nsps (depart K u.1)) (us_parents (depart K u.1)) (us_names (depart K u.1)) (us_tasks (depart K u.1))); [|done].
        f_equal. cbn. apply list_eq. intros j. rewrite list_lookup_imap. by destruct (us_clients u.1 !! j).
    - unfold dcE. rewrite Eh. fold K. destruct (u_open u.1 c) eqn:Eo; cbn [fst snd].
      + unfold u_conn_closed, ServerSpec.u_close. cbn [fst snd on_u]. rewrite (those_ext _ (of_conn c) _ u1.1), Hnone by done. cbn. rewrite app_nil_r. by rewrite <- app_assoc.
      + cbn. by rewrite app_nil_r.
  Qed.
End sim.
