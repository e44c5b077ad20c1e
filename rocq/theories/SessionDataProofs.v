From Verif Require Import Base GoTypes SessionData SessionDataSpec.

Lemma get_string_spec v s : get_string v = (s, true) ↔ ∃ w, v = Some w ∧ carries w s.
Proof.
  assert (∀ t : string, Nat.ltb 0 (String.length t) = true ↔ t ≠ "") as Hl.
  { intros [|a t]; cbn; [|by split]. by split. }
  unfold get_string. split.
  - intros [= Hs Hlen]. rewrite Hs in Hlen. apply Hl in Hlen.
    destruct v as [[]|]; try (by subst); cbn in *.
    + subst. eexists. split; [done|]. by constructor.
    + eexists. split; [done|]. destruct (last l) as [t|] eqn:E; [|by subst]. subst t.
      apply last_Some in E as (l' & ->). by constructor.
  - intros (w & -> & [t Ht|l t Ht]); cbn.
    + f_equal. by apply Hl.
    + rewrite last_snoc. f_equal. by apply Hl.
Qed.
Lemma restore_call_spec csr a p o : restore_call csr a = Some (p, o) ↔ csr = true ∧ presents a p o.
Proof.
  assert (∀ sd, (let p' := get_string (sd_pid sd) in let o' := get_string (sd_offset sd) in
                 if p'.2 && o'.2 && csr then Some (p'.1, o'.1) else None) = Some (p, o) ↔
                csr = true ∧ get_string (sd_pid sd) = (p, true) ∧ get_string (sd_offset sd) = (o, true)) as H.
  { intros sd. cbv zeta. destruct (get_string (sd_pid sd)) as [p' []], (get_string (sd_offset sd)) as [o' []], csr; cbn; naive_solver. }
  unfold restore_call. destruct a as [m|m|m|]; cbn [parse_session_data].
  - rewrite H. cbn [sd_pid sd_offset]. rewrite !get_string_spec. split.
    + intros (-> & (v & Hv & Cv) & (w & Hw & Cw)). split; [done|]. by econstructor.
    + intros (-> & Hp). inversion Hp; subst. eauto 10.
  - rewrite H. cbn [sd_pid sd_offset]. rewrite !get_string_spec. split.
    + intros (-> & (v & Hv & Cv) & (w & Hw & Cw)). split; [done|].
      apply fmap_Some in Hv as (x & Hx & ->). apply fmap_Some in Hw as (y & Hy & ->). inversion Cv; subst. inversion Cw; subst. by constructor.
    + intros (-> & Hp). inversion Hp as [|? ? ? Hx Hy]; subst. rewrite Hx, Hy. cbn. split; [done|]. split; eexists; (split; [done|]); by constructor.
  - split; [done|]. intros [_ Hp]. inversion Hp.
  - split; [done|]. intros [_ Hp]. inversion Hp.
Qed.
Lemma created_spec {S} csr (restore : string → string → option S) a s :
  create_socket csr restore a = Recovered s ↔ csr = true ∧ ∃ p o, presents a p o ∧ restore p o = Some s.
Proof.
  unfold create_socket. destruct (restore_call csr a) as [[p o]|] eqn:E.
  - assert (E' := E). apply restore_call_spec in E' as [-> Hp]. split.
    + destruct (restore p o) eqn:Hr; [|done]. intros [= ->]. eauto.
    + intros (_ & p' & o' & Hp' & Hr). assert (restore_call true a = Some (p', o')) as Heq by by apply restore_call_spec.
      rewrite E in Heq. inversion Heq; subst. by rewrite Hr.
  - split; [done|]. intros (-> & p & o & Hp & Hr). assert (restore_call true a = Some (p, o)) by by apply restore_call_spec. congruence.
Qed.
Lemma no_credentials_fresh {S} csr (restore : string → string → option S) a :
  (∀ p o, ¬ presents a p o) → create_socket csr restore a = Fresh.
Proof. intros H. destruct (create_socket csr restore a) eqn:E; [|done]. apply created_spec in E as (_ & p & o & Hp & _). by apply H in Hp. Qed.
