(** Registered namespaces: removal, parents, shutdown (C36, C37, C45). *)
From Verif Require Import Base GoTypes Rooms RoomsSpec RoomsProofs Adapter AdapterSpec Session System SystemSpec SystemProofs SystemLife SystemPolite SystemClaims SystemNsp SystemReg.

Section keep.
  Context (csr skip clean : bool).
  Notation sstep := (step csr skip clean).
  Notation srun := (run csr skip clean).
  Notation envok := (env_ok csr skip clean).
  Notation nice := (polite csr skip clean).
  Notation anyprim := (prim csr clean (λ _ _, True) (λ _ _, True) (λ _, True)).
  Notation cprim := (cprim csr clean).

  (** ** What a transition does to the registered namespaces *)
  Definition children_of (x : core) (p : nat) : gset nat := match c_parents x !! p with Some q => pa_children q | None => ∅ end.
  Definition labels (x : core) (n : nat) : option (string * option nat) := (λ np, (np_name np, np_parent np)) <$> c_nsps x !! n.
  Inductive kind (s s' : sys) : Prop :=
    | kd_same : c_reg s'.1 = c_reg s.1 → (∀ n, socks_of s'.1 n = socks_of s.1 n) → (∀ n, labels s'.1 n = labels s.1 n) →
        (∀ p, children_of s'.1 p = children_of s.1 p) →
        (c_socks s'.1 = c_socks s.1 ∨ ∃ a, c_socks s'.1 = c_socks s.1 ++ [a] ∧ sk_can_join a = true ∧ sk_connected a = false) → kind s s'
    | kd_connect k a : c_socks s.1 !! k = Some a → sk_can_join a = true → c_reg s'.1 = c_reg s.1 →
        (∀ n, socks_of s'.1 n = if decide (n = sk_nsp a) then <[sk_id a := k]> (socks_of s.1 n) else socks_of s.1 n) →
        (∀ n, labels s'.1 n = labels s.1 n) → (∀ p, children_of s'.1 p = children_of s.1 p) →
        c_socks s'.1 = alter (sk_set true true) k (c_socks s.1) → kind s s'
    | kd_leave k a : c_socks s.1 !! k = Some a → sk_can_join a = true →
        c_reg s'.1 = match reaps clean a s.1 with Some (m, _) => delete m (c_reg s.1) | None => c_reg s.1 end →
        (∀ n, socks_of s'.1 n = if decide (n = sk_nsp a) then delete (sk_id a) (socks_of s.1 n) else socks_of s.1 n) →
        (∀ n, labels s'.1 n = labels s.1 n) →
        (∀ p, children_of s'.1 p = match reaps clean a s.1 with Some (_, p') => if decide (p = p') then children_of s.1 p ∖ {[sk_nsp a]} else children_of s.1 p | None => children_of s.1 p end) →
        c_socks s'.1 = alter (sk_set false false) k (c_socks s.1) → kind s s'
    | kd_new np : c_reg s.1 !! np_name np = None → np_sockets np = ∅ → c_nsps s'.1 = c_nsps s.1 ++ [np] →
        c_reg s'.1 = <[np_name np := length (c_nsps s.1)]> (c_reg s.1) → c_socks s'.1 = c_socks s.1 →
        (∀ p, children_of s'.1 p = if decide (np_parent np = Some p) then {[length (c_nsps s.1)]} ∪ children_of s.1 p else children_of s.1 p) → kind s s'.
  Lemma labels_alter f n x n' : (∀ np, np_name (f np) = np_name np ∧ np_parent (f np) = np_parent np) → labels (set_nsps (alter f n (c_nsps x)) x) n' = labels x n'.
  Proof. intros H. unfold labels. cbn. rewrite alter_lookup. case_decide; [|done]. destruct (c_nsps x !! n'); [|done]. cbn. by destruct (H n0) as [-> ->]. Qed.
  Lemma children_alter (x : core) l p p' f : l = alter f p (c_parents x) → (∀ q, pa_children (f q) = pa_children q) →
    match l !! p' with Some q => pa_children q | None => ∅ end = children_of x p'.
  Proof. intros -> H. unfold children_of. rewrite alter_lookup. case_decide; [|done]. destruct (c_parents x !! p'); [|done]. apply H. Qed.
  Lemma socks_drop (x : core) os i n l n' : l = alter (drop os i) n (c_nsps x) →
    match l !! n' with Some np => np_sockets np | None => ∅ end = if decide (n' = n) then delete i (socks_of x n') else socks_of x n'.
  Proof.
    intros ->. unfold socks_of. rewrite alter_lookup. case_decide; [|done]. destruct (c_nsps x !! n'); [done|]. cbn. by rewrite delete_empty.
  Qed.
  Lemma leave_parents (x : core) r (i : nat) l p : l = match r with Some (_, p') => alter (λ q, pa_set_children (pa_children q ∖ {[i]}) q) p' (c_parents x) | None => c_parents x end →
    match l !! p with Some q => pa_children q | None => ∅ end =
      match r : option (string * nat) with Some (_, p') => if decide (p = p') then children_of x p ∖ {[i]} else children_of x p | None => children_of x p end.
  Proof.
    intros ->. unfold children_of. destruct r as [[m p']|]; [|done]. rewrite alter_lookup. case_decide; [|done]. destruct (c_parents x !! p); [done|]. set_solver.
  Qed.
  Lemma prim_kind s s' : anyprim s s' → invA s.1 → kind s s'.
  Proof.
    intros P A. destruct P; try (by (apply kd_same; try done; by left)).
    - destruct H; try (by (apply kd_same; try done; by left)). apply (kd_leave _ _ k a); try done.
      + by eapply (ia_live _ A).
      + by eapply onclose_reg.
      + intros n. by eapply socks_drop, onclose_nsps.
      + intros n. unfold labels. rewrite (onclose_nsps csr clean _ _ _ a) by done. by apply (labels_alter (drop os (sk_id a)) (sk_nsp a) s.1 n).
      + intros p. by eapply leave_parents, onclose_parents.
      + by eapply onclose_socks.
    - assert (∀ n, socks_of (join k rs s).1 n = socks_of s.1 n ∧ labels (join k rs s).1 n = labels s.1 n) as Hn.
      { intros n. unfold join. destruct (c_socks s.1 !! k) as [a|]; [|done]. destruct (sk_can_join a); [|done]. split; [by apply socks_alter|by apply labels_alter]. }
      apply kd_same; try (intros; apply Hn); [| |left; by apply join_socks]; unfold join; destruct (c_socks s.1 !! k) as [a|]; try done; by destruct (sk_can_join a).
    - assert (∀ n, socks_of (leave k r s).1 n = socks_of s.1 n ∧ labels (leave k r s).1 n = labels s.1 n) as Hn.
      { intros n. unfold leave. destruct (c_socks s.1 !! k) as [a|]; [|done]. split; [by apply socks_alter|by apply labels_alter]. }
      apply kd_same; try (intros; apply Hn); [| |left; by apply leave_socks]; unfold leave; by destruct (c_socks s.1 !! k) as [a|].
    - apply kd_same; try done. right. by exists a.
    - rewrite (do_connect_eq _ a) by done. apply (kd_connect _ _ k a); try done.
      + intros n. cbn [fst]. change (socks_of (conn2 a k s.1) n) with (socks_of (set_nsps (alter (enter a k) (sk_nsp a) (c_nsps s.1)) s.1) n).
        unfold socks_of. cbn. rewrite alter_lookup. case_decide; [|done]. subst. destruct (ia_wf _ A k a H) as [[np Hnp]%lookup_lt_is_Some _]. by rewrite Hnp.
      + intros n. by apply (labels_alter (enter a k) (sk_nsp a) s.1 n).
    - apply (kd_leave _ _ k a); try done.
      + by eapply cleanup_reg.
      + intros n. by eapply socks_drop, cleanup_nsps.
      + intros n. unfold labels. rewrite (cleanup_nsps _ _ _ a) by done. by apply (labels_alter (drop os (sk_id a)) (sk_nsp a) s.1 n).
      + intros p. by eapply leave_parents, cleanup_parents.
      + rewrite cleanup_socks. apply list_eq. intros j. rewrite !alter_lookup. case_decide; [|done]. subst. rewrite H0. cbn. by rewrite H1.
    - eapply (kd_new _ _ (Nspc name None empty_registry ∅ [] [])); done.
    - unfold create_child. rewrite H1. eapply (kd_new _ _ (Nspc name (Some p) empty_registry ∅ (pa_on q) (pa_fns q))); try done.
      intros p'. cbn. unfold children_of. cbn. rewrite alter_lookup. case_decide as Hd.
      + subst. rewrite H1. cbn. by rewrite decide_True.
      + rewrite decide_False by congruence. done.
    - apply kd_same; try done; [|by left]. intros p. unfold children_of. cbn. destruct (decide (p < length (c_parents s.1))).
      + by rewrite lookup_app_l.
      + rewrite lookup_app_r by lia. rewrite (lookup_ge_None_2 (c_parents s.1)) by lia. destruct (p - length (c_parents s.1)) as [|[]]; done.
    - apply kd_same; try done; [..|by left]; intros; [by apply socks_alter|by apply labels_alter].
    - apply kd_same; try done; [..|by left]; intros; [by apply socks_alter|by apply labels_alter].
    - apply kd_same; try done; [|by left]. intros p'. by eapply (children_alter s.1).
    - apply kd_same; try done; [|by left]. intros p'. by eapply (children_alter s.1).
  Qed.

  Lemma reaps_Some a x m p : reaps clean a x = Some (m, p) →
    clean = true ∧ labels x (sk_nsp a) = Some (m, Some p) ∧ delete (sk_id a) (socks_of x (sk_nsp a)) = ∅.
  Proof.
    unfold reaps, labels, socks_of. destruct (c_nsps x !! sk_nsp a) as [np|]; [|done]. destruct (np_parent np) eqn:Ep; [|done].
    destruct clean; [|done]. cbn. case_bool_decide; [|done]. intros [= <- <-]. by rewrite Ep.
  Qed.
  Lemma reaps_None a x m p : reaps clean a x = None → labels x (sk_nsp a) = Some (m, Some p) → clean = true → delete (sk_id a) (socks_of x (sk_nsp a)) ≠ ∅.
  Proof.
    unfold reaps, labels, socks_of. intros H. destruct (c_nsps x !! sk_nsp a) as [np|]; [|done]. cbn. intros [= <- Ep] Hc. rewrite Ep, Hc in H. cbn in H. by case_bool_decide.
  Qed.
  Record kept (x : core) : Prop := {
    kp_reg : clean = false → ∀ n m p, labels x n = Some (m, p) → registered x m n;
    kp_empty : clean = true → ∀ n m p, labels x n = Some (m, Some p) → registered x m n → socks_of x n = ∅ →
      ∀ k a, c_socks x !! k = Some a → sk_nsp a = n → sk_can_join a = true;
    kp_child : ∀ p n, n ∈ children_of x p → ∃ m, labels x n = Some (m, Some p);
    kp_par : ∀ p n m, labels x n = Some (m, Some p) → registered x m n → n ∈ children_of x p
  }.
  Lemma labels_app x y np n : c_nsps y = c_nsps x ++ [np] → labels y n = if decide (n = length (c_nsps x)) then Some (np_name np, np_parent np) else labels x n.
  Proof.
    intros E. unfold labels. rewrite E. case_decide as Hd.
    - subst. by rewrite lookup_app_r, Nat.sub_diag.
    - destruct (decide (n < length (c_nsps x))); [by rewrite lookup_app_l|]. rewrite lookup_app_r by lia. rewrite (lookup_ge_None_2 (c_nsps x)) by lia.
      destruct (n - length (c_nsps x)) as [|[]] eqn:En; [lia|done..].
  Qed.
  Lemma labels_lt x n l : labels x n = Some l → n < length (c_nsps x).
  Proof. unfold labels. destruct (c_nsps x !! n) eqn:E; [|done]. intros _. by eapply lookup_lt_Some. Qed.
  Lemma kept_kind s s' : kind s s' → invA s.1 → kept s.1 → kept s'.1.
  Proof.
    intros Kd A [K1 K2 K3 K4]. unfold registered in *. destruct Kd as [R S L Ch Sk|k a Ek Ej R S L Ch Sk|k a Ek Ej R S L Ch Sk|np Rn Sn N R Sk Ch].
    - split; unfold registered.
      { intros Hc n m p. rewrite L, R. by apply K1. }
      2:{ intros p n. rewrite Ch, L. apply K3. }
      2:{ intros p n m. rewrite Ch, L, R. apply K4. }
      intros Hc n m p Hl Hr He k a Hk Hn. rewrite L in Hl. rewrite S in He. rewrite R in Hr.
      destruct Sk as [Sk|(b & Sk & Hb & _)]; rewrite Sk in Hk; [by eapply K2|]. apply lookup_app_Some in Hk as [Hk|[_ Hk]]; [by eapply K2|]. by apply list_lookup_singleton_Some in Hk as [_ <-].
    - split; unfold registered.
      { intros Hc n m p. rewrite L, R. by apply K1. }
      2:{ intros p n. rewrite Ch, L. apply K3. }
      2:{ intros p n m. rewrite Ch, L, R. apply K4. }
      intros Hc n m p Hl Hr He j b Hj Hn. rewrite L in Hl. rewrite S in He. rewrite R in Hr.
      case_decide; [by apply insert_non_empty in He|]. rewrite Sk, alter_lookup in Hj. case_decide; [|by eapply K2].
      subst. rewrite Ek in Hj. by injection Hj as <-.
    - split; unfold registered.
      + intros Hc n m p. rewrite L, R. destruct (reaps clean a s.1) as [[m' p']|] eqn:Er; [|by apply K1]. apply reaps_Some in Er as [? _]. congruence.
      + intros Hc n m p Hl Hr He j b Hj Hn. rewrite L in Hl. rewrite S in He. rewrite R in Hr. rewrite Sk, alter_lookup in Hj.
        destruct (reaps clean a s.1) as [[m' p']|] eqn:Er.
        * apply reaps_Some in Er as (_ & Hl' & He'). apply lookup_delete_Some in Hr as [Hm Hr]. destruct (decide (n = sk_nsp a)) as [->|Hd]; [congruence|].
          destruct (decide (j = k)); [subst; rewrite Ek in Hj; injection Hj as <-; done|]. by eapply K2.
        * destruct (decide (n = sk_nsp a)) as [->|Hd]; [by eapply reaps_None in Er|].
          destruct (decide (j = k)); [subst; rewrite Ek in Hj; injection Hj as <-; done|]. by eapply K2.
      + intros p n. rewrite Ch, L. destruct (reaps clean a s.1) as [[m' p']|]; [|apply K3]. case_decide; [|apply K3]. intros [Hn _]%elem_of_difference. by apply K3.
      + intros p n m. rewrite Ch, L, R. destruct (reaps clean a s.1) as [[m' p']|] eqn:Er; [|apply K4]. intros Hl [Hm Hr]%lookup_delete_Some.
        case_decide; [|by eapply K4]. apply elem_of_difference. split; [by eapply K4|]. apply reaps_Some in Er as (_ & Hl' & _).
        intros ->%elem_of_singleton. congruence.
    - assert (∀ n l, labels s.1 n = Some l → n ≠ length (c_nsps s.1)) as Hlt by (intros n l Hl ->; apply labels_lt in Hl; lia).
      split; unfold registered.
      + intros Hc n m p. rewrite (labels_app s.1 _ np) by done. rewrite R. case_decide; [intros [= <- <-]; subst; by rewrite lookup_insert|].
        intros Hl. rewrite lookup_insert_ne; [by eapply K1|]. intros Hm. apply K1 in Hl; [|done]. congruence.
      + intros Hc n m p Hl Hr He k a. rewrite Sk. intros Hk Hn. destruct (ia_wf _ A k a Hk) as [Hlt' _].
        rewrite (labels_app s.1 _ np) in Hl by done. rewrite decide_False in Hl by lia. rewrite R in Hr.
        apply lookup_insert_Some in Hr as [[_ Hr]|[Hm Hr]]; [lia|]. eapply (K2 Hc n); try done.
        rewrite <- He. unfold socks_of. rewrite N, lookup_app_l by lia. done.
      + intros p n. rewrite Ch, (labels_app s.1 _ np) by done. case_decide as Hd.
        * intros [->%elem_of_singleton|Hn]%elem_of_union; [rewrite decide_True, Hd by done; eauto|].
          apply K3 in Hn as [m Hm]. rewrite decide_False by eauto. eauto.
        * intros Hn. apply K3 in Hn as [m Hm]. rewrite decide_False by eauto. eauto.
      + intros p n m. rewrite Ch, R, (labels_app s.1 _ np) by done. case_decide as Hd.
        * intros [= <- Hp]. intros _. rewrite decide_True by done. subst. set_solver.
        * intros Hl Hr. apply lookup_insert_Some in Hr as [[_ Hr]|[Hm Hr]]; [congruence|]. pose proof (K4 _ _ _ Hl Hr). case_decide; set_solver.
  Qed.
  Lemma run_kept h : envok h → kept (srun h).1.
  Proof.
    intros He. revert h He. apply (run_inv csr skip clean (λ s, kept s.1)).
    - split; cbn.
      + intros _ n m p. unfold labels. cbn. destruct n; cbn; [|done]. intros [= <- <-]. done.
      + intros _ n m p. unfold labels. cbn. destruct n; cbn; [done|done].
      + done.
      + intros p n m. unfold labels. cbn. destruct n; cbn; [done|done].
    - intros s s' P A K. eapply kept_kind; [by apply prim_kind|done|done].
  Qed.

  (** ** Namespaces of connected sockets are registered, if no attempt outlives its namespace *)
  Record Z (x : core) : Prop := {
    z_reg : ∀ k a, c_socks x !! k = Some a → sk_connected a = true → registered x (name_of x (sk_nsp a)) (sk_nsp a);
    z_new : ∀ n m p, labels x n = Some (m, p) →
      (p ≠ None → clean = true → ∀ k a, c_socks x !! k = Some a → sk_nsp a = n → sk_can_join a = true) → registered x m n
  }.
  Definition proper (s s' : sys) : Prop := ∀ k a, c_socks s.1 !! k = Some a → sk_can_join a = true → c_socks s'.1 !! k ≠ Some a →
    registered s.1 (name_of s.1 (sk_nsp a)) (sk_nsp a).
  Definition noleave (s s' : sys) : Prop := ∀ k a b, c_socks s.1 !! k = Some a → sk_can_join a = true → c_socks s'.1 !! k = Some b → sk_can_join b = true.
  Lemma labels_name x n m p : labels x n = Some (m, p) → name_of x n = m.
  Proof. unfold labels, name_of. destruct (c_nsps x !! n); [|done]. by intros [= <- <-]. Qed.
  Lemma name_labels x y n : labels y n = labels x n → name_of y n = name_of x n.
  Proof. unfold labels, name_of. destruct (c_nsps x !! n), (c_nsps y !! n); try done; cbn; congruence. Qed.
  Lemma Z_kind s s' : kind s s' → proper s s' → invA s.1 → invPC s.1 ∨ noleave s s' → Z s.1 → Z s'.1.
  Proof.
    intros Kd Pr A PC [Z1 Z2]. unfold registered, proper in *. destruct Kd as [R S L Ch Sk|k a Ek Ej R S L Ch Sk|k a Ek Ej R S L Ch Sk|np Rn Sn N R Sk Ch].
    - split; unfold registered.
      + intros k a Hk Hc. rewrite (name_labels s.1), R by done. destruct Sk as [Sk|(b & Sk & _ & Hb)]; rewrite Sk in Hk; [by eapply Z1|].
        apply lookup_app_Some in Hk as [Hk|[_ Hk]]; [by eapply Z1|]. apply list_lookup_singleton_Some in Hk as [_ <-]. congruence.
      + intros n m p. rewrite L, R. intros Hl Ho. eapply Z2; [done|]. intros Hp Hc k a Hk. apply (Ho Hp Hc k). destruct Sk as [->|(b & -> & _)]; [done|by apply lookup_app_l_Some].
    - split; unfold registered.
      + intros j b Hj Hc. rewrite (name_labels s.1), R by done. rewrite Sk, alter_lookup in Hj. case_decide; [|by eapply Z1].
        subst. rewrite Ek in Hj. injection Hj as <-. cbn. destruct (sk_connected a) eqn:Eca; [by eapply Z1|]. apply (Pr k a Ek Ej).
        rewrite Sk, list_lookup_alter, Ek. intros [= H9]. rewrite <- H9 in Eca. done.
      + intros n m p. rewrite L, R. intros Hl Ho. eapply Z2; [done|]. intros Hp Hc j b Hj Hn. destruct (decide (j = k)); [subst; congruence|].
        apply (Ho Hp Hc j b); [|done]. by rewrite Sk, list_lookup_alter_ne.
    - assert (c_socks s'.1 !! k = Some (sk_set false false a)) as Ek' by (by rewrite Sk, list_lookup_alter, Ek).
      destruct PC as [PC|Hno]; [|by apply (Hno k a _ Ek Ej) in Ek'].
      assert (c_reg s.1 !! name_of s.1 (sk_nsp a) = Some (sk_nsp a)) as Hra.
      { apply (Pr k a Ek Ej). rewrite Ek'. intros [= H9]. by rewrite <- H9 in Ej. }
      split; unfold registered.
      + intros j b Hj Hc. rewrite (name_labels s.1), R by done. rewrite Sk, alter_lookup in Hj. case_decide as Hjk.
        { subst. rewrite Ek in Hj. injection Hj as <-. done. }
        pose proof (Z1 j b Hj Hc) as Hb. destruct (reaps clean a s.1) as [[m p]|] eqn:Er; [|done]. apply reaps_Some in Er as (_ & Hl & He).
        apply lookup_delete_Some. split; [|done]. intros Hm. pose proof (labels_name _ _ _ _ Hl) as Hn. rewrite Hn, Hm, Hb in Hra. injection Hra as Hra.
        destruct (pc_c _ PC j b Hj Hc) as (Hs & _). rewrite Hra in Hs. apply (f_equal (lookup (sk_id b))) in He.
        rewrite lookup_delete_ne, Hs in He; [done|]. destruct (pc_p _ PC k j a b) as [? _]; try done. by eapply (ia_live _ A).
      + intros n m p. rewrite L, R. intros Hl Ho. assert (n = sk_nsp a ∨ n ≠ sk_nsp a) as [->|Hn] by (destruct (decide (n = sk_nsp a)); auto).
        * destruct (reaps clean a s.1) as [[m' p']|] eqn:Er.
          { apply reaps_Some in Er as (Hc & Hl' & _). assert (p = Some p') as -> by congruence. exfalso. specialize (Ho ltac:(done) Hc k _ Ek' eq_refl). done. }
          apply labels_name in Hl. congruence.
        * assert (c_reg s.1 !! m = Some n) as Hr.
          { eapply Z2; [done|]. intros Hp Hc j b Hj Hnb. destruct (decide (j = k)) as [->|Hjk]; [congruence|]. apply (Ho Hp Hc j b); [|done]. by rewrite Sk, list_lookup_alter_ne. }
          destruct (reaps clean a s.1) as [[m' p']|] eqn:Er; [|done]. apply reaps_Some in Er as (Hc & Hl' & _). apply labels_name in Hl'.
          apply lookup_delete_Some. split; [|done]. intros Hm. rewrite Hl', Hm in Hra. congruence.
    - assert (∀ m n, c_reg s.1 !! m = Some n → c_reg s'.1 !! m = Some n) as Hmono. { intros m n Hr. rewrite R, lookup_insert_ne; [done|]. by intros <-; rewrite Rn in Hr. }
      split; unfold registered.
      + intros k a Hk Hc. rewrite Sk in Hk. destruct (ia_wf _ A k a Hk) as [Hlt _]. rewrite (name_labels s.1).
        * by eapply Hmono, Z1.
        * rewrite (labels_app s.1 _ np) by done. rewrite decide_False by lia. done.
      + intros n m p. rewrite (labels_app s.1 _ np) by done. case_decide; [intros [= <- <-] _; subst; by rewrite R, lookup_insert|].
        intros Hl Ho. eapply Hmono, Z2; [done|]. intros Hp Hc k a Hk. apply (Ho Hp Hc k). by rewrite Sk.
  Qed.

  (** Transitions that change no socket. *)
  Definition mild (s s' : sys) : Prop := anyprim s s' ∧ c_socks s'.1 = c_socks s.1.
  Lemma mild_inv s s' : mild s s' → invA s.1 → invA s'.1.
  Proof. intros [P _]. by eapply invA_prim. Qed.
  Lemma mild_reg s s' m n : mild s s' → invA s.1 → registered s.1 m n → registered s'.1 m n.
  Proof.
    unfold registered. intros [P Es] A Hr. apply prim_kind in P as [R S L Ch Sk|k a Ek Ej R S L Ch Sk|k a Ek Ej R S L Ch Sk|np Rn Sn N R Sk Ch]; [by rewrite R..| |rewrite R, lookup_insert_ne; [done|congruence]|done].
    rewrite Es in Sk. apply (f_equal (lookup k)) in Sk. rewrite list_lookup_alter, Ek in Sk. injection Sk as Sk. by rewrite Sk in Ej.
  Qed.
  Lemma mild_Z s s' : mild s s' → invA s.1 → Z s.1 → Z s'.1.
  Proof.
    intros [P Es] A Hz. eapply Z_kind; [by apply prim_kind| |done| |exact Hz].
    - intros k a Hk _. rewrite Es. done.
    - right. intros k a b Hk Ha. rewrite Es. congruence.
  Qed.
  Notation milds := (goodR mild).
  Lemma rtc_mild s s' : rtc mild s s' → invA s.1 → invA s'.1 ∧ c_socks s'.1 = c_socks s.1 ∧ nsps_grow (c_nsps s.1) (c_nsps s'.1) ∧ (Z s.1 → Z s'.1) ∧ ∀ m n, registered s.1 m n → registered s'.1 m n.
  Proof.
    induction 1 as [s|s y s' M _ IH]; intros A; [split_and!; auto using nsps_grow_refl|].
    destruct (IH (mild_inv _ _ M A)) as (I1 & I2 & I3 & I4 & I5). split_and!; [done| | | |].
    - rewrite I2. apply M.
    - eapply nsps_grow_trans; [eapply prim_nsps, M|done].
    - intros Hz. apply I4. by eapply mild_Z.
    - intros m n Hr. apply I5. by eapply mild_reg.
  Qed.
  Lemma quiet_mild e s : quiet e → mild s (log e s).
  Proof. intros H. split; [|done]. by apply pr_c, pr_note. Qed.
  Lemma sock_packet_milds k ty d : ty ≠ CONNECT → milds (sock_packet k ty d).
  Proof. intros Ht s A. unfold sock_packet, write. destruct (c_socks s.1 !! k); [|done]. destruct (is_open _ _); [|done]. by apply rtc_once, quiet_mild. Qed.
  Lemma join_milds k rs : milds (join k rs).
  Proof. intros s A. apply rtc_once. split; [apply pr_join|apply join_socks]. Qed.
  Lemma leave_milds k r : milds (leave k r).
  Proof. intros s A. apply rtc_once. split; [apply pr_leave|apply leave_socks]. Qed.
  Lemma of_name_milds os raw fn : sords_ok os → milds (of_name os raw fn).
  Proof.
    intros Hos s A. unfold of_name. destruct (c_reg s.1 !! norm raw) as [n|] eqn:E; [destruct fn; [apply rtc_once; split; [apply pr_on|done]|done]|].
    destruct (first_match os s.1 (norm raw)) as [p|] eqn:Ef.
    - destruct (first_match_Some _ _ _ _ Hos Ef) as [_ [q Hq]]. apply rtc_once. split; [by eapply pr_child|apply create_child_socks].
    - assert (norm raw ≠ "/") as Hr by (intros Hr; rewrite Hr, (ia_root _ A) in E; done).
      rewrite decide_False by done. etrans; [apply rtc_once; split; [by apply pr_nsp|done]|].
      destruct fn; [|done]. cbn. rewrite lookup_insert. apply rtc_once. split; [apply pr_on|done].
  Qed.
  Lemma create_child_milds p name s : c_reg s.1 !! name = None → rtc mild s (create_child p name s).
  Proof.
    intros Hr. destruct (c_parents s.1 !! p) as [q|] eqn:E; [|unfold create_child; by rewrite E]. apply rtc_once. split; [by eapply pr_child|apply create_child_socks].
  Qed.
  Lemma add_Z c n x s : invA s.1 → c < length (c_clients s.1) → Z s.1 → registered s.1 (name_of s.1 n) n → Z (add csr skip c n x s).1.
  Proof.
    intros A Hc Hz Hr. destruct (ia_name _ A _ _ Hr) as (np & Hnp & _). apply lookup_lt_Some in Hnp.
    set (k := length (c_socks s.1)).
    assert (∀ a, sk_connected a = false → sk_can_join a = true → sk_nsp a = n → sk_client a = c → ∀ f, milds f →
      let s1 := f (on_core (λ y, set_socks (c_socks y ++ [a]) y) s) in
      invA s1.1 ∧ Z s1.1 ∧ c_socks s1.1 !! k = Some a ∧ registered s1.1 (name_of s1.1 n) n) as Hcr.
    { intros a H1 H2 H3 H4 f Hf. set (s0 := on_core (λ y, set_socks (c_socks y ++ [a]) y) s).
      assert (anyprim s s0) as P by (apply pr_create; [done..|congruence|congruence]).
      assert (invA s0.1) as A0 by (by eapply invA_prim). destruct (rtc_mild _ _ (Hf s0 A0) A0) as (I1 & I2 & I3 & I4 & I5). cbv zeta.
      split; [done|]. split; [|split].
      - apply I4. eapply Z_kind; [by apply prim_kind|..|exact Hz]; [|done|].
        + intros j b Hj Hb Hne. destruct Hne. by apply lookup_app_l_Some.
        + right. intros j b b' Hj Hb. cbn. rewrite lookup_app_l by (by eapply lookup_lt_Some). congruence.
      - rewrite I2. cbn. by rewrite lookup_app_r, Nat.sub_diag.
      - rewrite (nsps_grow_name s0.1 _ n I3) by done. apply I5, Hr. }
    assert (∃ a, invA (create_socket csr c n x s).1 ∧ Z (create_socket csr c n x s).1 ∧ c_socks (create_socket csr c n x s).1 !! k = Some a ∧
      registered (create_socket csr c n x s).1 (name_of (create_socket csr c n x s).1 n) n ∧ sk_connected a = false ∧ sk_can_join a = true ∧ sk_nsp a = n ∧ sk_client a = c) as (a & I1 & I2 & I3 & I4 & I5 & I6 & I7 & I8).
    { unfold create_socket. destruct (if csr then x_prev x else None) as [[[i rs] missed]|].
      - exists (Sock i n c false true true).
        assert (milds (λ s, foldl (λ s d, sock_packet k EVENT d s) (foldl (λ s r, join k [r] s) s rs) missed)) as Hm.
        { apply (goodR_comp mild mild_inv (λ s, foldl (λ s r, join k [r] s) s rs) (λ s, foldl (λ s d, sock_packet k EVENT d s) s missed)).
          - apply (goodR_foldl mild mild_inv). intros r. apply join_milds.
          - apply (goodR_foldl mild mild_inv). intros r. by apply sock_packet_milds. }
        destruct (Hcr (Sock i n c false true true) eq_refl eq_refl eq_refl eq_refl _ Hm) as (J1 & J2 & J3 & J4). split_and!; done.
      - set (i := match c_clients s.1 !! c with Some cl => _ | None => _ end). exists (Sock i n c false true false).
        destruct (Hcr (Sock i n c false true false) eq_refl eq_refl eq_refl eq_refl (λ s, s) (λ s _, rtc_refl _ _)) as (J1 & J2 & J3 & J4).
        split_and!; done. }
    unfold add. destruct (_ && is_open _ c) eqn:E; [|done]. apply andb_prop in E as [_ E]. fold k.
    assert (anyprim (create_socket csr c n x s) (do_connect k (create_socket csr c n x s))) as P by (apply (pr_connect _ _ _ _ _ k a); [done..|congruence]).
    eapply Z_kind; [by apply prim_kind|..|exact I2]; [|done|].
    - intros j b Hj Hb Hne. assert (j = k) as ->.
      { destruct (decide (j = k)); [done|]. destruct Hne. rewrite (do_connect_eq _ a) by (done || congruence). cbn. by rewrite list_lookup_alter_ne. }
      rewrite I3 in Hj. injection Hj as <-. by rewrite I7.
    - right. intros j b b' Hj Hb. rewrite (do_connect_eq _ a) by (done || congruence). cbn. rewrite alter_lookup. case_decide; [|congruence].
      subst. rewrite I3. by intros [= <-].
  Qed.
  Lemma client_do_connect_Z os c name x s : sords_ok os → invA s.1 → c < length (c_clients s.1) → Z s.1 → Z (client_do_connect csr skip os c name x s).1.
  Proof.
    intros Hos A Hc Hz. unfold client_do_connect. destruct (rtc_mild _ _ (of_name_milds os name None Hos s A) A) as (I1 & I2 & I3 & I4 & I5).
    destruct (c_reg (of_name os name None s).1 !! norm name) as [n|] eqn:E; [|auto]. destruct (of_name_frame os name None s) as [F1 F2].
    apply add_Z; [done|by rewrite F1|auto|]. destruct (ia_name _ I1 _ _ E) as (np & Hnp & Hm). unfold name_of. rewrite Hnp, Hm. done.
  Qed.
  Lemma accept_Z os c p name x s : sords_ok os → invA s.1 → c < length (c_clients s.1) → Z s.1 → Z (accept csr skip os c p name x s).1.
  Proof.
    intros Hos A Hc Hz. unfold accept. destruct (c_reg s.1 !! name) eqn:E; [by apply client_do_connect_Z|].
    destruct (rtc_mild _ _ (create_child_milds p name s E) A) as (I1 & I2 & I3 & I4 & I5). apply client_do_connect_Z; auto.
    unfold create_child. by destruct (c_parents s.1 !! p).
  Qed.
  Lemma connect_Z os c name ans x s : sords_ok os → invA s.1 → c < length (c_clients s.1) → Z s.1 → Z (connect csr skip os c name ans x s).1.
  Proof.
    intros Hos A Hc Hz. unfold connect. destruct (c_reg s.1 !! name) eqn:E; [by apply client_do_connect_Z|].
    destruct (check_loop _ _ _ _); [by apply accept_Z|]. unfold deny. by rewrite write_core.
  Qed.
  Lemma cprim_Z Q s s' : cprim Q s s' → invPC s.1 → Z s.1 → Z s'.1.
  Proof.
    intros P PC Hz. assert (anyprim s s') as P' by (apply pr_c; destruct P; econstructor; eauto; done).
    eapply Z_kind; [apply prim_kind; [done|apply PC]| |apply PC|by left|done].
    intros k a Hk Hj Hne. apply Hz with k; [done|]. destruct P; try (by destruct Hne). rewrite (onclose_socks csr clean _ _ _ a0) in Hne by done.
    destruct (decide (k = k0)) as [->|]; [congruence|]. rewrite list_lookup_alter_ne in Hne by done. done.
  Qed.
  Lemma crtc_Z Q s s' : rtc (cprim Q) s s' → invPC s.1 → Z s.1 → Z s'.1.
  Proof. induction 1; [done|]. intros PC Hz. apply IHrtc; [by eapply cprim_PC|by eapply cprim_Z]. Qed.
  Lemma step_Z e s : op_env s e → invPC s.1 → (∀ k a, pending s.1 k → c_socks s.1 !! k = Some a → registered s.1 (name_of s.1 (sk_nsp a)) (sk_nsp a)) → Z s.1 → Z (sstep e s).1.
  Proof.
    intros [Hos He] PC Hat Hz. pose proof (pc_a _ PC) as A. destruct (closing_step s e) eqn:Ecl.
    { eapply (crtc_Z (λ _ _, True)); [by apply step_cprims|done|done]. }
    assert (∀ f, milds f → Z (f s).1) as Hmild. { intros f Hf. by apply (rtc_mild _ _ (Hf s A) A). }
    destruct e as [os o]. cbn [fst snd] in *. destruct o; try discriminate; cbn [step fst snd] in *.
    - set (s0 := on_core _ s). assert (mild s s0) as M by (split; [apply pr_open|done]). pose proof (mild_inv _ _ M A) as A0. pose proof (mild_Z _ _ M A Hz) as Z0.
      destruct p3; [|done]. apply connect_Z; try done. cbn. rewrite app_length. cbn. lia.
    - destruct (is_open s.1 c) eqn:E; [|done]. cbn in Ecl. rewrite E in Ecl. cbn in Ecl. unfold bad_packet in Ecl. unfold ondecoded.
      destruct (cnsps_of s.1 c !! p_nsp p) as [k|] eqn:Ek; apply bool_decide_eq_false in Ecl.
      + rewrite decide_False by done. eapply mild_Z; [split; [apply (pr_task _ _ _ _ _ c k p)|]|..]; try done; naive_solver.
      + destruct (decide _) as [Hd|Hd]; [|done]. apply connect_Z; try done. by apply is_open_lt.
    - destruct He as [He _]. by apply accept_Z.
    - unfold verdict. destruct He as (a & Ek & Ec & Ej). rewrite Ek. pose proof (Hat k a ltac:(by exists a) Ek) as Hr.
      assert (∀ s', anyprim s s' → (∀ j, j ≠ k → c_socks s'.1 !! j = c_socks s.1 !! j) → Z s'.1) as Hs.
      { intros s' P Hj. eapply Z_kind; [by apply prim_kind| |done|by left|done]. intros j b Hjb Hb Hne. destruct (decide (j = k)) as [->|]; [congruence|].
        by rewrite Hj in Hne. }
      assert (Z (cleanup clean os k s).1) as Hcl.
      { apply Hs; [by eapply pr_refuse|]. intros j Hj. by rewrite cleanup_socks, list_lookup_alter_ne. }
      destruct (is_open s.1 (sk_client a)) eqn:Eo; [|done]. destruct err as [er|]; [by rewrite sock_packet_core|].
      apply Hs; [by eapply pr_connect|]. intros j Hj. rewrite (do_connect_eq _ a) by done. cbn. by rewrite list_lookup_alter_ne.
    - apply (Hmild (join k rs)), join_milds.
    - apply (Hmild (leave k r)), leave_milds.
    - by apply (Hmild (of_name os raw fn)), of_name_milds.
    - eapply mild_Z; [split; [apply pr_parent|]|..]; done.
    - eapply mild_Z; [split; [apply pr_pon|]|..]; done.
    - eapply mild_Z; [split; [apply pr_puse|]|..]; done.
    - eapply mild_Z; [split; [apply pr_use|]|..]; done.
    - apply (Hmild (apply_nsp os n (λ k s, join k rs s) opts)). apply (apply_goodR mild mild_inv). intros k. apply join_milds.
    - apply (Hmild (apply_nsp os n (λ k s, foldl (λ s r, leave k r s) s rs) opts)). apply (apply_goodR mild mild_inv). intros k.
      apply (goodR_foldl mild mild_inv). intros r. apply leave_milds.
  Qed.
  Lemma attended_snoc h e : attended csr skip clean (h ++ [e]) → attended csr skip clean h.
  Proof. intros H h1 h2 ->. apply (H h1 (h2 ++ [e])). by rewrite <- app_assoc. Qed.
  Lemma run_Z h : envok h → nice h → attended csr skip clean h → Z (srun h).1.
  Proof.
    induction h as [|e h IH] using rev_ind; intros He Hn Ha.
    { split; [done|]. intros [|n] m p; [|done]. intros [= <- <-]. done. }
    apply env_snoc in He as [He Ho]. apply nice_snoc in Hn as [Hn _]. rewrite run_snoc. apply step_Z; [done|by apply run_PC|..].
    - by apply (Ha h [e]).
    - apply IH; [done..|by eapply attended_snoc].
  Qed.

  (** ** C36 *)
  Lemma c36_never_l h : envok h → clean = false → ∀ n np, c_nsps (srun h).1 !! n = Some np → registered (srun h).1 (np_name np) n.
  Proof. intros He Hc n np Hn. eapply (kp_reg _ (run_kept h He) Hc n _ (np_parent np)). unfold labels. by rewrite Hn. Qed.
  Lemma c36_never_lost_l h1 h2 m n : envok (h1 ++ h2) → clean = false → registered (srun h1).1 m n → registered (srun (h1 ++ h2)).1 m n.
  Proof.
    intros He Hc Hr. pose proof (env_app _ _ _ _ _ He) as He1. destruct (run_B csr skip clean h1 He1) as [A _]. destruct (ia_name _ A _ _ Hr) as (np & Hnp & <-).
    destruct (rtc_nsps _ _ _ _ _ _ _ (run_rtc csr skip clean h1 h2 He) n np Hnp) as (np' & Hnp' & <- & _). by apply c36_never_l.
  Qed.
  Lemma c36_empty_l h n np p k : envok h → clean = true → c_nsps (srun h).1 !! n = Some np → np_parent np = Some p → np_sockets np = ∅ →
    (∃ a, c_socks (srun h).1 !! k = Some a ∧ sk_nsp a = n) → closed (srun h).1 k → ¬ registered (srun h).1 (np_name np) n.
  Proof.
    intros He Hc Hn Hp Hs (a & Hk & Ha) (b & Hb & _ & Hcl) Hr. assert (a = b) as -> by congruence.
    assert (sk_can_join b = true) as H9; [|congruence]. eapply (kp_empty _ (run_kept h He) Hc n (np_name np) p); try done.
    - unfold labels. by rewrite Hn, <- Hp.
    - unfold socks_of. by rewrite Hn.
  Qed.
  Lemma c36_registered_l h k a : envok h → nice h → attended csr skip clean h → c_socks (srun h).1 !! k = Some a → sk_connected a = true →
    registered (srun h).1 (name_of (srun h).1 (sk_nsp a)) (sk_nsp a).
  Proof. intros He Hn Ha. by apply z_reg, run_Z. Qed.
  Lemma c36_exact_l h n np : envok h → nice h → attended csr skip clean h → c_nsps (srun h).1 !! n = Some np →
    registered (srun h).1 (np_name np) n ↔
      clean = false ∨ np_parent np = None ∨ np_sockets np ≠ ∅ ∨ ∀ k a, c_socks (srun h).1 !! k = Some a → sk_nsp a = n → ¬ closed (srun h).1 k.
  Proof.
    intros He Hn Ha Hnp. pose proof (run_Z h He Hn Ha) as Hz. destruct (run_B csr skip clean h He) as [A _].
    assert (labels (srun h).1 n = Some (np_name np, np_parent np)) as Hl by (unfold labels; by rewrite Hnp).
    split.
    - intros Hr. destruct clean eqn:Ec; [|auto]. right. destruct (np_parent np) as [p|] eqn:Ep; [|auto]. right.
      destruct (decide (np_sockets np = ∅)) as [Es|]; [|auto]. right. intros k a Hk Hna Hc. rewrite <- Ec in *. eapply (c36_empty_l h n np p k); eauto.
    - intros H. destruct (decide (np_sockets np = ∅)) as [Es|Es].
      + eapply (z_new _ Hz n); [done|]. intros Hp Hc k a Hk Hna. destruct H as [H|[H|[H|H]]]; try done; [congruence|].
        destruct (sk_can_join a) eqn:Ej; [done|]. destruct (H k a Hk Hna). exists a. split; [done|]. split; [|done].
        destruct (sk_connected a) eqn:Ec; [|done]. pose proof (ia_live _ A k a Hk Ec). congruence.
      + apply map_choose in Es as (i & k & Hi). destruct (ia_nsock _ A n i k) as (a & Hk & _ & Hna & Hc); [unfold socks_of; by rewrite Hnp|].
        pose proof (z_reg _ Hz k a Hk Hc) as Hr. rewrite Hna in Hr. unfold name_of in Hr. by rewrite Hnp in Hr.
  Qed.

  (** ** C37 *)
  Lemma relay_fold os opts (d : nat → list value) l (s : sys) : sords_ok os → invA s.1 → invC s.1 → invR s.1 →
    ∃ L, L.*1 = l ∧ (∀ n ks, (n, ks) ∈ L → NoDup ks ∧ ∀ k, k ∈ ks ↔ target s.1 n opts k) ∧
      relayed s (foldl (λ s n, broadcast os n EVENT (d n) opts s) s l) L (λ n, Packet EVENT (name_of s.1 n) (d n) None).
  Proof.
    intros Hos. revert s. induction l as [|n l IH]; intros s A C R.
    { exists []. split; [done|]. split; [by intros ? ? ?%elem_of_nil|]. split; [done|]. by rewrite app_nil_r. }
    cbn [foldl]. destruct (broadcast_delivered os n (d n) opts s Hos A C R) as (ks & Hnd & Ht & E1 & E2).
    set (s1 := broadcast os n EVENT (d n) opts s) in *. destruct (IH s1) as (L & HL & Hks & F1 & F2); try (by rewrite E1).
    exists ((n, ks) :: L). cbn. split; [by rewrite HL|]. split.
    { intros n' ks' [[= -> ->]|H]%elem_of_cons; [done|]. rewrite E1 in Hks. by apply Hks. }
    split; [congruence|]. rewrite F2, E2, E1, <- app_assoc. done.
  Qed.
  Lemma reach_intro h p opts L : envok h → L.*1 ≡ₚ elements (children_of (srun h).1 p) →
    (∀ n ks, (n, ks) ∈ L → NoDup ks ∧ ∀ k, k ∈ ks ↔ target (srun h).1 n opts k) → reaches (srun h).1 p opts L.
  Proof.
    intros He HL Ht. pose proof (run_kept h He) as K. split; [rewrite HL; apply NoDup_elements|..|done].
    - intros n. rewrite HL, elem_of_elements. intros [m Hm]%(kp_child _ K). unfold labels in Hm. destruct (c_nsps (srun h).1 !! n) as [np|]; [|done].
      injection Hm as _ Hp. by exists np.
    - intros n np Hn Hp Hr. rewrite HL, elem_of_elements. eapply (kp_par _ K); [|done]. unfold labels. by rewrite Hn, <- Hp.
  Qed.
  Lemma c37_emit_l h os p data off : envok (h ++ [(os, OParentEmit p data off)]) → nice h → p < length (c_parents (srun h).1) →
    let opts := Some (BOpts (Some ∅) (Some ∅) (Some no_flags)) in
    ∃ L d, reaches (srun h).1 p opts L ∧ (∀ n, stamped csr data opts (off n) (d n)) ∧
      relayed (srun h) (srun (h ++ [(os, OParentEmit p data off)])) L (λ n, Packet EVENT (name_of (srun h).1 n) (d n) None).
  Proof.
    intros [He [Hos _]]%env_snoc Hn Hp opts. destruct (run_PC csr skip clean h He Hn) as [A _ _ C]. rewrite run_snoc. cbn. unfold parent_emit. fold opts.
    apply lookup_lt_is_Some in Hp as [q Hq]. rewrite Hq.
    destruct (relay_fold os opts (λ n, offset_data csr (off n) data opts) (so_children os (pa_children q)) (srun h) Hos A C (run_R csr skip clean h He Hn)) as (L & HL & Ht & HR).
    exists L, (λ n, offset_data csr (off n) data opts). split; [|split; [intros n; apply offset_stamped|done]]. apply reach_intro; [done| |done].
    rewrite HL. destruct Hos as (_ & _ & _ & _ & _ & Hoc). unfold children_of. rewrite Hq. apply Hoc.
  Qed.
  Lemma c37_broadcast_l h os p data off opts : envok (h ++ [(os, OParentBroadcast p data off opts)]) → nice h → p < length (c_parents (srun h).1) →
    csr = false →
    ∃ L, reaches (srun h).1 p opts L ∧
      relayed (srun h) (srun (h ++ [(os, OParentBroadcast p data off opts)])) L (λ n, Packet EVENT (name_of (srun h).1 n) data None).
  Proof.
    intros [He [Hos _]]%env_snoc Hn Hp Hcsr. destruct (run_PC csr skip clean h He Hn) as [A _ _ C]. rewrite run_snoc. cbn. unfold parent_broadcast.
    apply lookup_lt_is_Some in Hp as [q Hq]. rewrite Hq.
    assert (∀ l (s : sys), (foldl (λ acc n, let d := offset_data csr (off n) acc.2 opts in (broadcast os n EVENT d opts acc.1, d)) (s, data) l).1 =
      foldl (λ s n, broadcast os n EVENT data opts s) s l) as Hf.
    { assert (∀ n, offset_data csr (off n) data opts = data) as Hd by (intros n; unfold offset_data; by rewrite Hcsr).
      induction l as [|n l IH]; intros s; [done|]. cbn [foldl fst snd]. cbv zeta. rewrite (Hd n). apply IH. }
    rewrite Hf. destruct (relay_fold os opts (λ n, data) (so_children os (pa_children q)) (srun h) Hos A C (run_R csr skip clean h He Hn)) as (L & HL & Ht & HR).
    exists L. split; [|done]. apply reach_intro; [done| |done]. rewrite HL. destruct Hos as (_ & _ & _ & _ & _ & Hoc). unfold children_of. rewrite Hq. apply Hoc.
  Qed.

  (** ** C45 *)
  Definition bye := "server shutting down".
  Notation sprim := (cprim (λ o _, o = Some bye)).
  Lemma sprim_shrink s s' : rtc sprim s s' → invA s.1 →
    (∀ n i k, socks_of s'.1 n !! i = Some k → socks_of s.1 n !! i = Some k) ∧ (∀ m n, c_reg s'.1 !! m = Some n → c_reg s.1 !! m = Some n).
  Proof.
    induction 1 as [|s y s' P _ IH]; [done|]. intros A. assert (anyprim s y) as P' by (apply pr_c; destruct P; econstructor; eauto; done).
    destruct (IH (invA_prim _ _ _ _ _ _ _ P' A)) as [I1 I2]. clear IH.
    assert ((∀ n i k, socks_of y.1 n !! i = Some k → socks_of s.1 n !! i = Some k) ∧ (∀ m n, c_reg y.1 !! m = Some n → c_reg s.1 !! m = Some n)) as [J1 J2]; [|split; eauto].
    destruct P; try done.
    - rewrite (onclose_reg csr clean _ _ _ a) by done. split.
      + intros n i j. unfold socks_of at 1. erewrite socks_drop by (by eapply onclose_nsps). case_decide; [|done]. rewrite lookup_delete_Some. by intros [_ ?].
      + intros m n. destruct (reaps clean a s.1) as [[m' p']|]; [|done]. rewrite lookup_delete_Some. by intros [_ ?].
  Qed.
  Lemma shut_inner os n l s : sords_ok os → invA s.1 →
    let s' := foldl (λ s i, match socks_of s.1 n !! i with Some k => onclose csr clean os bye k s | None => s end) s l in
    rtc sprim s s' ∧ ∀ i, i ∈ l → socks_of s'.1 n !! i = None.
  Proof.
    intros Hos. revert s. induction l as [|i l IH]; intros s A; [split; [done|]; by intros i ?%elem_of_nil|]. cbn [foldl].
    set (s1 := match socks_of s.1 n !! i with Some k => onclose csr clean os bye k s | None => s end).
    assert (rtc sprim s s1 ∧ socks_of s1.1 n !! i = None) as [H1 H2].
    { unfold s1. destruct (socks_of s.1 n !! i) as [k|] eqn:E; [|done]. split; [by apply onclose_prims|].
      destruct (ia_nsock _ A _ _ _ E) as (a & Hk & Hi & Hn & Hc). unfold socks_of at 1. erewrite socks_drop by (by eapply onclose_nsps).
      rewrite decide_True by done. rewrite Hi. apply lookup_delete. }
    assert (invA s1.1) as A1 by (by eapply invA_crtc).
    destruct (IH s1 A1) as [I1 I2]. split; [by etrans|]. intros j [->|Hj]%elem_of_cons; [|by apply I2].
    destruct (sprim_shrink _ _ I1 A1) as [S1 _]. match goal with |- ?x = None => destruct x as [k|] eqn:E; [|done] end. apply S1 in E. congruence.
  Qed.
  Lemma shut_outer os l s : sords_ok os → invA s.1 →
    let s' := foldl (λ s name,
      match c_reg s.1 !! name with
      | None => s
      | Some n => foldl (λ s i, match socks_of s.1 n !! i with Some k => onclose csr clean os bye k s | None => s end)
                    s (so_nsock os name (dom (socks_of s.1 n)))
      end) s l in
    rtc sprim s s' ∧ ∀ m n, m ∈ l → c_reg s'.1 !! m = Some n → socks_of s'.1 n = ∅.
  Proof.
    intros Hos. revert s. induction l as [|m l IH]; intros s A; [split; [done|]; by intros m n ?%elem_of_nil|]. cbn [foldl].
    set (s1 := match c_reg s.1 !! m with None => s | Some n => _ end).
    assert (rtc sprim s s1 ∧ ∀ n, c_reg s.1 !! m = Some n → socks_of s1.1 n = ∅) as [H1 H2].
    { unfold s1. destruct (c_reg s.1 !! m) as [n|]; [|done]. destruct (shut_inner os n (so_nsock os m (dom (socks_of s.1 n))) s Hos A) as [I1 I2].
      split; [done|]. intros n' [= <-]. apply map_empty. intros i. destruct (sprim_shrink _ _ I1 A) as [S1 _].
      match goal with |- ?x = None => destruct x as [k|] eqn:E; [|done] end. rewrite <- E. apply I2. destruct Hos as (_ & _ & _ & Ho & _). rewrite (Ho m _).
      apply elem_of_elements, elem_of_dom. apply S1 in E. by exists k. }
    assert (invA s1.1) as A1 by (by eapply invA_crtc).
    destruct (IH s1 A1) as [I1 I2]. split; [by etrans|]. intros m' n [->|Hm]%elem_of_cons Hr; [|by eapply I2].
    destruct (sprim_shrink _ _ I1 A1) as [S1 S2]. destruct (sprim_shrink _ _ H1 A) as [_ S3]. apply map_empty. intros i.
    match goal with |- ?x = None => destruct x as [k|] eqn:E; [|done] end. apply S1 in E. rewrite (H2 n) in E; [done|]. by apply S3, S2.
  Qed.
  Lemma c45_shutdown_l h os : envok (h ++ [(os, OShutdown)]) → nice h → attended csr skip clean h →
    let s := srun h in let s' := srun (h ++ [(os, OShutdown)]) in
    ∀ k a, c_socks s.1 !! k = Some a →
      if sk_connected a then closed s'.1 k ∧ lives k s'.2 = lives k s.2 ++ [LDisconnecting bye; LDisconnect bye]
      else c_socks s'.1 !! k = Some a ∧ lives k s'.2 = lives k s.2.
  Proof.
    intros [He [Hos _]]%env_snoc Hn Ha s s' k a Ek. pose proof (run_PC csr skip clean h He Hn) as PC. pose proof (run_Z h He Hn Ha) as Hz. fold s in PC, Hz.
    assert (s' = shutdown csr clean os s) as Es by (unfold s'; by rewrite run_snoc). unfold shutdown in Es.
    destruct (shut_outer os (so_nsps os (dom (c_reg s.1))) s Hos (pc_a _ PC)) as [H1 H2]. unfold bye in *. rewrite <- Es in H1, H2. clear Es.
    destruct (crtc_fate csr clean (λ o _, o = Some "server shutting down") s s' k a) as [[E1 L1]|(r & Ec & [= ->] & E1 & L1)]; [done..| |].
    - destruct (sk_connected a) eqn:Ec; [|done]. pose proof (crtc_PC _ _ _ _ _ H1 PC) as PC'. pose proof (crtc_Z _ _ _ H1 PC Hz) as Hz'.
      pose proof (z_reg _ Hz' k a E1 Ec) as Hr. destruct (pc_c _ PC' k a E1 Ec) as [Hs _]. rewrite (H2 (name_of s'.1 (sk_nsp a))) in Hs; [done| |done].
      destruct Hos as (_ & _ & Ho & _). rewrite (Ho _). apply elem_of_elements, elem_of_dom. destruct (sprim_shrink _ _ H1 (pc_a _ PC)) as [_ S2]. exists (sk_nsp a). by apply S2.
    - rewrite Ec. split; [|done]. by eexists.
  Qed.
End keep.
