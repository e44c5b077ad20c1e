(** More about admissions on a connection with several sockets (C74). *)
From Verif Require Import Base LifeConc LifeConcSpec LifeConcProofs LifeMore LifeAlone LifeMoves ConnConc ConnConcSpec ConnConcProofs.

Lemma admitted_rooms s ts sched x r : fresh (sock s x) → cs_open s = true → (∀ t, t ∈ ts → ¬ may_close x t) → (∀ b, CConnect x b ∉ ts) → CLeave x r ∉ ts →
  creturned (crun s (CConnect x false :: ts) sched) →
  (r ∈ ls_rooms (sock (cc_state (crun s (CConnect x false :: ts) sched)) x) ↔ r = x ∨ r ∈ ls_rooms (sock s x) ∨ ∃ rs, CJoin x rs ∈ ts ∧ r ∈ rs).
Proof.
  intros Hf Ho Hm Hn Hl Hr. destruct (view s (CConnect x false :: ts) sched x) as (us & sched' & H & Hst & Hlog & Hd & _).
  pose proof (returned_view s (CConnect x false :: ts) sched x us sched' H Hd Hr) as Hret. apply Forall2_cons_inv_l in H as (u & us' & Hu & H & ->). cbn in Hu. rewrite decide_True in Hu by done. subst u.
  rewrite <- Hst. rewrite (c51_rooms_l (sock s x) us' sched' x r Hf Ho); [| | |done].
  - split; intros [?|[?|(rs & Hj & Hin)]]; auto; right; right.
    + destruct (seen_from x ts us' _ H Hj) as (t & Ht & Hsu). exists rs. split; [|done].
      destruct t as [y b|y|y|y rs'|y r'|y|q| ]; cbn in Hsu; try (destruct (decide (y = x)) as [->|]); simplify_eq; try (by apply elem_of_empty in Hin); try done;
      destruct Hsu as [|Hsu]; simplify_eq; by apply elem_of_empty in Hin.
    + destruct (seen_in x ts us' _ H Hj) as (u & Hu & Hsu). cbn in Hsu. rewrite decide_True in Hsu by done. subst u. by exists rs.
  - apply Forall_forall. intros u Hu. split; [by apply (Forall_forall (λ u, ¬ admits u) us'); [eapply no_admits|]|]. destruct (seen_from x ts us' u H Hu) as (t & Ht & Hsu).
    intros Hc. apply (Hm t Ht). destruct t; cbn in Hsu |- *; try done; try (destruct (decide _)); by subst.
  - intros Hx. destruct (seen_from x ts us' _ H Hx) as (t & Ht & Hsu).
    destruct t as [y b|y|y|y rs'|y r'|y|q| ]; cbn in Hsu; try (destruct (decide (y = x)) as [->|]); simplify_eq; try done. by destruct Hsu.
Qed.
Lemma refused_told s ts sched x : fresh (sock s x) → cs_open s = true → (∀ b, CConnect x b ∉ ts) → (∀ r, CTransport r ∉ ts) → (∀ y, CDisconnectAll y ∈ ts → y = x) →
  creturned (crun s (CConnect x true :: ts) sched) → (log_of x (crun s (CConnect x true :: ts) sched)).*2 = [VDenied].
Proof.
  intros Hf Ho Hn Ht Hy Hr. destruct (view s (CConnect x true :: ts) sched x) as (us & sched' & H & Hst & Hlog & Hd & _).
  pose proof (returned_view s (CConnect x true :: ts) sched x us sched' H Hd Hr) as Hret. apply Forall2_cons_inv_l in H as (u & us' & Hu & H & ->). cbn in Hu. rewrite decide_True in Hu by done. subst u.
  rewrite <- Hlog. apply (c51_told_l (sock s x) us' sched' x Hf Ho); [|done].
  intros u Hu. split; [by apply (Forall_forall (λ u, ¬ admits u) us'); [eapply no_admits|]|]. destruct (seen_from x ts us' u H Hu) as (t & Hin & Hsu).
  destruct t as [y b|y|y|y rs'|y r'|y|q| ]; cbn in Hsu; try (destruct (decide (y = x)) as [->|]); simplify_eq; try done; [|by destruct (Ht q)]. by apply Hy in Hin.
Qed.
Lemma closed_alone s t ts sched x : settled (sock s x) → cs_open s = true → must_close x t → (∀ u, u ∈ ts → ¬ may_close x u) → (∀ b, CConnect x b ∉ ts) →
  creturned (crun s (t :: ts) sched) → (log_of x (crun s (t :: ts) sched)).*2 = farewell_of t.
Proof.
  intros Hs Ho Ht Hm Hn Hr. destruct (view s (t :: ts) sched x) as (us & sched' & H & Hst & Hlog & Hd & _).
  pose proof (returned_view s (t :: ts) sched x us sched' H Hd Hr) as Hret. apply Forall2_cons_inv_l in H as (u & us' & Hu & H & ->).
  assert (closes u ∧ farewell u = farewell_of t) as [Hc <-].
  { destruct t as [y b|y|y|y rs'|y r'|y|q| ]; cbn in Ht, Hu; try done; try (rewrite decide_True in Hu by done); by subst. }
  rewrite <- Hlog. apply c51_alone_l; try done.
  apply Forall_forall. intros v Hv. split; [by apply (Forall_forall (λ u, ¬ admits u) us'); [eapply no_admits|]|]. destruct (seen_from x ts us' v H Hv) as (t' & Ht' & Hsu).
  intros Hc'. apply (Hm t' Ht'). destruct t'; cbn in Hsu |- *; try done; try (destruct (decide _)); by subst.
Qed.
Lemma admitted_left s ts sched x r : fresh (sock s x) → cs_open s = true → (∀ t, t ∈ ts → ¬ may_close x t) → (∀ b, CConnect x b ∉ ts) → r ≠ x → (∀ rs, CJoin x rs ∈ ts → r ∉ rs) →
  creturned (crun s (CConnect x false :: ts) sched) →
  (r ∈ ls_rooms (sock (cc_state (crun s (CConnect x false :: ts) sched)) x) ↔ r ∈ ls_rooms (sock s x) ∧ CLeave x r ∉ ts).
Proof.
  intros Hf Ho Hm Hn Hx Hj Hr. destruct (view s (CConnect x false :: ts) sched x) as (us & sched' & H & Hst & Hlog & Hd & _).
  pose proof (returned_view s (CConnect x false :: ts) sched x us sched' H Hd Hr) as Hret. apply Forall2_cons_inv_l in H as (u & us' & Hu & H & ->). cbn in Hu. rewrite decide_True in Hu by done. subst u.
  rewrite <- Hst. rewrite (c51_left_l (sock s x) us' sched' x r Hf Ho); [| |done| |done].
  - assert (LcLeave r ∈ us' ↔ CLeave x r ∈ ts) as Hl; [|by rewrite Hl]. split.
    + intros Hin. destruct (seen_from x ts us' _ H Hin) as (t & Ht & Hsu).
      destruct t as [y b|y|y|y rs'|y r'|y|q| ]; cbn in Hsu; try (destruct (decide (y = x)) as [->|]); simplify_eq; try done; by destruct Hsu.
    + intros Hin. destruct (seen_in x ts us' _ H Hin) as (u & Hu & Hsu). cbn in Hsu. rewrite decide_True in Hsu by done. by subst u.
  - apply Forall_forall. intros u Hu. split; [by apply (Forall_forall (λ u, ¬ admits u) us'); [eapply no_admits|]|]. destruct (seen_from x ts us' u H Hu) as (t & Ht & Hsu).
    intros Hc. apply (Hm t Ht). destruct t; cbn in Hsu |- *; try done; try (destruct (decide _)); by subst.
  - intros (rs & Hin & Hrs). destruct (seen_from x ts us' _ H Hin) as (t & Ht & Hsu).
    destruct t as [y b|y|y|y rs'|y r'|y|q| ]; cbn in Hsu; try (destruct (decide (y = x)) as [->|]); simplify_eq; try (by apply elem_of_empty in Hrs); try done.
    all: try (destruct Hsu as [|Hsu]; simplify_eq; by apply elem_of_empty in Hrs). by apply (Hj rs').
Qed.
Lemma stays s ts sched x : settled (sock s x) → (∀ t, t ∈ ts → ¬ may_close x t) → (∀ b, CConnect x b ∉ ts) → creturned (crun s ts sched) →
  let f := crun s ts sched in settled (sock (cc_state f) x) ∧ log_of x f = [] ∧
  (∀ r, CLeave x r ∉ ts → (r ∈ ls_rooms (sock (cc_state f) x) ↔ r ∈ ls_rooms (sock s x) ∨ ∃ rs, CJoin x rs ∈ ts ∧ r ∈ rs)) ∧
  (∀ r, (∀ rs, CJoin x rs ∈ ts → r ∉ rs) → (r ∈ ls_rooms (sock (cc_state f) x) ↔ r ∈ ls_rooms (sock s x) ∧ CLeave x r ∉ ts)).
Proof.
  intros Hs Hm Hn Hr f. subst f. destruct (view s ts sched x) as (us & sched' & H & Hst & Hlog & Hd & _).
  pose proof (returned_view s ts sched x us sched' H Hd Hr) as Hret.
  assert (Forall (λ t, ¬ admits t ∧ ¬ closes t) us) as Hf.
  { apply Forall_forall. intros u Hu. split; [by apply (Forall_forall (λ u, ¬ admits u) us); [eapply no_admits|]|]. destruct (seen_from x ts us u H Hu) as (t & Ht & Hsu).
    intros Hc. apply (Hm t Ht). destruct t; cbn in Hsu |- *; try done; try (destruct (decide _)); by subst. }
  assert (∀ r, LcLeave r ∈ us ↔ CLeave x r ∈ ts) as Hl.
  { intros r. split.
    - intros Hin. destruct (seen_from x ts us _ H Hin) as (t & Ht & Hsu).
      destruct t as [y b|y|y|y rs'|y r'|y|q| ]; cbn in Hsu; try (destruct (decide (y = x)) as [->|]); simplify_eq; try done; by destruct Hsu.
    - intros Hin. destruct (seen_in x ts us _ H Hin) as (u & Hu & Hsu). cbn in Hsu. rewrite decide_True in Hsu by done. by subst u. }
  assert (∀ r, joinable us r ↔ ∃ rs, CJoin x rs ∈ ts ∧ r ∈ rs) as Hj.
  { intros r. split; intros (rs & Hin & Hrs).
    - destruct (seen_from x ts us _ H Hin) as (t & Ht & Hsu). exists rs. split; [|done].
      destruct t as [y b|y|y|y rs'|y r'|y|q| ]; cbn in Hsu; try (destruct (decide (y = x)) as [->|]); simplify_eq; try (by apply elem_of_empty in Hrs); try done;
      destruct Hsu as [|Hsu]; simplify_eq; by apply elem_of_empty in Hrs.
    - destruct (seen_in x ts us _ H Hin) as (u & Hu & Hsu). cbn in Hsu. rewrite decide_True in Hsu by done. subst u. by exists rs. }
  destruct (c51_moves_l (sock s x) us sched' Hs Hf Hret) as (H1 & H2 & H3 & H4). rewrite Hst in H1, H3, H4. rewrite Hlog in H2.
  split; [done|]. split; [done|]. split.
  - intros r Hr'. rewrite H3 by (by rewrite Hl). by rewrite Hj.
  - intros r Hr'. rewrite H4; [by rewrite Hl|]. rewrite Hj. intros (rs & Hin & Hrs). by apply (Hr' rs).
Qed.
