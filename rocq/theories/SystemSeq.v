(** The statements of C20–C22 and C25 as read off the log. *)
From Verif Require Import Base GoTypes Rooms RoomsSpec RoomsProofs Adapter AdapterSpec Session System SystemSpec SystemProofs SystemLife SystemPolite SystemClaims.

Section seqs.
  Context (csr skip clean : bool).
  Notation sstep := (step csr skip clean).
  Notation srun := (run csr skip clean).
  Notation envok := (env_ok csr skip clean).
  Notation nice := (polite csr skip clean).

  (** ** C20 *)
  Lemma c20_written_l h l1 x c p l2 : envok h → (srun h).2 = l1 ++ (x, EWrite c p) :: l2 → p_type p = CONNECT →
    ∃ k a y fns l3, l2 = (y, EConnect k fns) :: (y, EConnection k) :: l3 ∧ welcomed x k a ∧ sk_client a = c ∧ p_nsp p = name_of x (sk_nsp a) ∧
      (p_data p = [] ∨ p_data p = [VStr (sk_id a)]) ∧ tabled y k a.
  Proof. intros He E Ht. by apply (run_facts csr skip clean h He l1 x (EWrite c p) l2 E). Qed.
  Lemma c20_connect_l h l1 x k fns l2 : envok h → (srun h).2 = l1 ++ (x, EConnect k fns) :: l2 →
    ∃ l0 x0 p a l3, l1 = l0 ++ [(x0, EWrite (sk_client a) p)] ∧ p_type p = CONNECT ∧ l2 = (x, EConnection k) :: l3 ∧ welcomed x k a ∧ tabled x k a ∧
      fns = match c_nsps x !! sk_nsp a with Some n => np_on n | None => [] end.
  Proof. intros He E. by apply (run_facts csr skip clean h He l1 x (EConnect k fns) l2 E). Qed.
  Lemma c20_connection_l h l1 x k l2 : envok h → (srun h).2 = l1 ++ (x, EConnection k) :: l2 → ∃ l0 fns, l1 = l0 ++ [(x, EConnect k fns)].
  Proof. intros He E. by apply (run_facts csr skip clean h He l1 x (EConnection k) l2 E). Qed.
  Lemma c20_life_l h k : envok h →
    lives k (srun h).2 = [] ∧ ¬ connected (srun h).1 k ∨
    (∃ ps, lives k (srun h).2 = LConnect :: LConnection :: map LEvent ps) ∧ connected (srun h).1 k ∨
    (∃ ps r, lives k (srun h).2 = LConnect :: LConnection :: map LEvent ps ++ [LDisconnecting r; LDisconnect r]) ∧ closed (srun h).1 k.
  Proof.
    intros He. destruct (run_B csr skip clean h He) as [_ B]. specialize (B k). unfold connected, closed. destruct (c_socks (srun h).1 !! k) as [a|]; cbn in B.
    - destruct (sk_connected a) eqn:Ec; [right; left; eauto|]. destruct B as [->|[Hj (ps & r & ->)]].
      + left. split; [done|]. intros (b & [= <-] & ?). congruence.
      + right. right. eauto 7.
    - left. split; [done|]. by intros (b & ? & _).
  Qed.
  Lemma c20_admitted_l h os k : envok (h ++ [(os, OVerdict k None)]) → (∀ a, c_socks (srun h).1 !! k = Some a → is_open (srun h).1 (sk_client a) = true) →
    let s' := srun (h ++ [(os, OVerdict k None)]) in ∃ a, welcomed s'.1 k a ∧ tabled s'.1 k a ∧ lives k s'.2 = [LConnect; LConnection].
  Proof.
    intros [He [Hos (a & Ek & Ec & Ej)]]%env_snoc Ho s'. unfold s'. rewrite run_snoc. cbn. unfold verdict. rewrite Ek. rewrite (Ho a Ek).
    destruct (run_B csr skip clean h He) as [A B]. destruct (ia_wf _ A k a Ek) as [Hn Hc].
    rewrite (do_connect_eq _ a) by auto. exists (sk_set true true a). pose proof (conn1_welcomed a k (srun h).1 Ek Ej Hn) as W. split; [exact W|]. split.
    - unfold tabled. apply lookup_lt_is_Some in Hc as [cl Hcl]. unfold csocks_of, cnsps_of. cbn. rewrite list_lookup_alter, Hcl. cbn.
      rewrite lookup_insert. split; [done|]. unfold name_of at 1. cbn. rewrite alter_lookup, decide_True by done. 
      unfold name_of. apply lookup_lt_is_Some in Hn as [np Hnp]. rewrite Hnp. cbn. apply lookup_insert.
    - cbn [snd]. rewrite lives_app. specialize (B k). rewrite Ek in B. cbn in B. rewrite Ec in B. destruct B as [->|[? _]]; [|congruence].
      cbn. unfold life_of. cbn. by rewrite !decide_True.
  Qed.

  (** ** C21 *)
  Lemma c21_disconnecting_l h l1 x k r l2 : envok h → (srun h).2 = l1 ++ (x, EDisconnecting k r) :: l2 →
    connected x k ∧ ∃ l0 y l3, l2 = l0 ++ (y, EDisconnect k r) :: l3 ∧ (l0 = [] ∨ l0 = [(x, EPersist k)]).
  Proof. intros He E. by apply (run_facts csr skip clean h He l1 x (EDisconnecting k r) l2 E). Qed.
  Lemma c21_disconnect_l h l1 y k r l2 : envok h → (srun h).2 = l1 ++ (y, EDisconnect k r) :: l2 →
    closed y k ∧ rooms_sock y k = ∅ ∧ ∀ a, c_socks y !! k = Some a → socks_of y (sk_nsp a) !! sk_id a = None ∧ csocks_of y (sk_client a) !! sk_id a = None.
  Proof. intros He E. by apply (run_facts csr skip clean h He l1 y (EDisconnect k r) l2 E). Qed.
  Lemma c21_preceded_l h y k r : envok h → (y, EDisconnect k r) ∈ (srun h).2 → ∃ ps, lives k (srun h).2 = LConnect :: LConnection :: map LEvent ps ++ [LDisconnecting r; LDisconnect r].
  Proof.
    intros He Hy. assert (LDisconnect r ∈ lives k (srun h).2) as Hl.
    { apply elem_of_list_omap. exists (y, EDisconnect k r). split; [done|]. unfold life_of. cbn. by rewrite decide_True. }
    destruct (c20_life_l h k He) as [[E _]|[[(ps & E) _]|[(ps & r' & E) _]]]; rewrite E in Hl.
    - by apply elem_of_nil in Hl.
    - rewrite !elem_of_cons in Hl. destruct Hl as [?|[?|(p & ? & _)%elem_of_list_fmap]]; done.
    - rewrite !elem_of_cons, elem_of_app, !elem_of_cons, elem_of_nil in Hl. destruct Hl as [?|[?|[(p & ? & _)%elem_of_list_fmap|[?|[[= <-]|?]]]]]; try done. by exists ps.
  Qed.

  (** ** C25 *)
  Lemma c25_processed_l h x e k p : envok h → ids_ok (srun h).1 → (x, e) ∈ (srun h).2 → processes e k p → sent csr skip clean h k p.
  Proof. intros He Hi. by apply (run_routed csr skip clean h He Hi). Qed.
  Lemma c25_ids_l h : envok h → nice h → ids_ok (srun h).1.
  Proof. intros He Hn. apply (run_PC csr skip clean h He Hn). Qed.
End seqs.
