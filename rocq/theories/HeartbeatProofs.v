(** Proofs about the membership of a whole cluster. *)
From Verif Require Import Base GoTypes ClusterReq ClusterReqSpec ClusterReqProofs Heartbeat HeartbeatSpec.
Local Open Scope Z_scope.

Definition seen (s : mstate) (v u : string) : option Z := n ← ms_nodes s !! v; hb_nodes (mn_h n) !! u.
Definition timer (s : mstate) (u : string) : option htimer := mn_timer <$> ms_nodes s !! u.

#[global] Instance is_initial_dec (m : cmessage) : Decision (m = MInitial).
Proof. destruct m; (by left) || (by right). Defined.
Lemma delete_other {A} (l : list A) i x y : l !! i = Some x → y ∈ l → y ≠ x → y ∈ delete i l.
Proof.
  intros Hi Hy Hne. rewrite (delete_Permutation _ _ _ Hi) in Hy. by apply elem_of_cons in Hy as [?|?].
Qed.
Lemma delete_sub {A} (l : list A) i y : y ∈ delete i l → y ∈ l.
Proof.
  intros H. eapply elem_of_submseteq; [exact H|]. apply sublist_submseteq, sublist_delete.
Qed.

Section proofs.
  Context (interval timeout : Z) (revive : bool).
  Notation mstep := (mstep interval timeout revive).
  Notation mrun := (mrun interval timeout revive).
  Notation publish := (publish interval revive).
  Notation sched := (sched interval revive).

  Lemma mrun_app s a b : mrun s (a ++ b) = s' ← mrun s a; mrun s' b.
  Proof. revert s. induction a as [|e a IH]; intros s; [done|]. cbn. destruct (mstep s e); cbn; [apply IH|done]. Qed.
  Lemma mrun_snoc s a e : mrun s (a ++ [e]) = s' ← mrun s a; mstep s' e.
  Proof. rewrite mrun_app. destruct (mrun s a) as [s'|]; [|done]. cbn. by destruct (mstep s' e). Qed.

  (** What each primitive does to the clock, the timers, the memories and the messages. *)
  Lemma base_net u m s f : f ∈ ms_net (base_publish u m s) ↔
    f ∈ ms_net s ∨ (fl_from f = u ∧ fl_sent f = ms_now s ∧ fl_msg f = m ∧ fl_to f ≠ u ∧ fl_to f ∈ dom (ms_nodes s)).
  Proof.
    cbn. rewrite elem_of_app, elem_of_list_fmap. f_equiv. split.
    - intros (d & -> & Hd%elem_of_elements). cbn. set_solver.
    - destruct f as [d w t m']; cbn. intros (-> & -> & -> & ? & ?). exists d. split; [done|]. apply elem_of_elements. set_solver.
  Qed.
  Lemma on_node_now u f s : ms_now (on_node u f s) = ms_now s.
  Proof. done. Qed.
  Lemma on_node_dom u f s : dom (ms_nodes (on_node u f s)) = dom (ms_nodes s).
  Proof. cbn. apply dom_alter_L. Qed.
  Lemma publish_net u m s f : f ∈ ms_net (publish u m s) ↔
    f ∈ ms_net s ∨ (fl_from f = u ∧ fl_sent f = ms_now s ∧ fl_msg f = m ∧ fl_to f ≠ u ∧ fl_to f ∈ dom (ms_nodes s)).
  Proof. unfold Heartbeat.publish. rewrite base_net, on_node_dom. done. Qed.
  Lemma publish_seen u m s v w : seen (publish u m s) v w = seen s v w.
  Proof.
    unfold seen. cbn. destruct (decide (v = u)) as [->|]; [|by rewrite lookup_alter_ne].
    rewrite lookup_alter. by destruct (ms_nodes s !! u).
  Qed.
  Lemma publish_timer u m s v : timer (publish u m s) v = if decide (v = u) then sched (ms_now s) <$> timer s u else timer s v.
  Proof.
    unfold timer. cbn. destruct (decide (v = u)) as [->|]; [|by rewrite lookup_alter_ne].
    rewrite lookup_alter. by destruct (ms_nodes s !! u).
  Qed.
  Lemma publish_dom u m s : dom (ms_nodes (publish u m s)) = dom (ms_nodes s).
  Proof. cbn. apply dom_alter_L. Qed.

  Lemma receive_cases o f s : ∃ s1, (((fl_from f = fl_to f ∨ fl_msg f ≠ MInitial) ∧ receive interval revive o f s = s1) ∨ (fl_msg f = MInitial ∧ receive interval revive o f s = publish (fl_to f) MHeartbeat s1)) ∧
    ms_now s1 = ms_now s ∧ ms_net s1 = ms_net s ∧ dom (ms_nodes s1) = dom (ms_nodes s) ∧ (∀ w, timer s1 w = timer s w) ∧
    (∀ v u, seen s1 v u = if decide (v = fl_to f ∧ is_Some (ms_nodes s !! v) ∧ u = fl_from f ∧ u ≠ v ∧ (u ≠ emitter_uid ∨ fl_msg f = MClose))
       then match fl_msg f with MClose => None | _ => Some (ms_now s) end else seen s v u).
  Proof.
    eexists (on_node (fl_to f) (λ n, MNode (on_message (fl_to f) (ms_now s) o (fl_from f) (fl_msg f) (mn_h n)) (mn_timer n) (mn_closed n)) s).
    split_and!; try done.
    - unfold receive. destruct (fl_msg f) eqn:E; auto. case_decide; auto.
    - apply on_node_dom.
    - intros w. unfold timer. cbn. destruct (decide (w = fl_to f)) as [->|]; [|by rewrite lookup_alter_ne].
      rewrite lookup_alter. by destruct (ms_nodes s !! fl_to f).
    - intros v u. unfold seen. cbn. destruct (decide (v = fl_to f)) as [->|].
      + rewrite lookup_alter. destruct (ms_nodes s !! fl_to f) as [n|] eqn:E; cbn.
        * rewrite message_nodes.
          destruct (decide (u = fl_from f ∧ _)) as [(-> & ? & ?)|n1]; destruct (decide (fl_to f = fl_to f ∧ _)) as [(? & ? & ? & ? & ?)|n2]; try done.
          -- destruct n2. split_and!; eauto.
          -- destruct n1. subst. split_and!; eauto.
        * rewrite decide_False; [done|]. by intros (_ & [? ?] & _).
      + rewrite lookup_alter_ne by done. rewrite decide_False by (by intros [? _]). done.
  Qed.

  Definition joined (w : string) (s : mstate) : mstate := MState (ms_now s) (<[w := MNode hinit TmNone false]> (ms_nodes s)) (ms_net s).
  Lemma join_seen w s v u : ms_nodes s !! w = None → seen (joined w s) v u = seen s v u.
  Proof.
    intros H. unfold seen. cbn. destruct (decide (v = w)) as [->|]; [|by rewrite lookup_insert_ne].
    rewrite lookup_insert, H. done.
  Qed.
  Lemma join_timer w s v : timer (joined w s) v = if decide (v = w) then Some TmNone else timer s v.
  Proof.
    unfold timer. cbn. destruct (decide (v = w)) as [->|]; [by rewrite lookup_insert|by rewrite lookup_insert_ne].
  Qed.
  Lemma step_dom s e s' : mstep s e = Some s' → dom (ms_nodes s) ⊆ dom (ms_nodes s').
  Proof.
    destruct e; cbn [Heartbeat.mstep]; intros H; try (apply bind_Some in H as (n & Hn & H)).
    - destruct (ms_nodes s !! u); [done|]. injection H as <-. cbn. rewrite dom_insert. set_solver.
    - injection H as <-. by rewrite publish_dom.
    - injection H as <-. by rewrite publish_dom.
    - by injection H as <-.
    - destruct (mn_timer n); try done. case_decide; [|done]. injection H as <-. by rewrite publish_dom.
    - injection H as <-. unfold close_node. by rewrite on_node_dom, publish_dom.
    - injection H as <-. destruct (receive_cases o n (MState (ms_now s) (ms_nodes s) (delete i (ms_net s)))) as (s1 & [[_ ->]|[_ ->]] & ? & ? & Hd & _).
      + by rewrite Hd.
      + by rewrite publish_dom, Hd.
    - destruct (mn_closed n); [done|]. injection H as <-. by rewrite on_node_dom.
    - case_decide; [|done]. by injection H as <-.
  Qed.
  Lemma step_now s e s' : mstep s e = Some s' → ms_now s ≤ ms_now s'.
  Proof.
    destruct e; cbn [Heartbeat.mstep]; intros H; try (apply bind_Some in H as (n & Hn & H)).
    - destruct (ms_nodes s !! u); [done|]. by injection H as <-.
    - injection H as <-. done.
    - injection H as <-. done.
    - by injection H as <-.
    - destruct (mn_timer n); try done. case_decide; [|done]. injection H as <-. done.
    - injection H as <-. done.
    - injection H as <-. destruct (receive_cases o n (MState (ms_now s) (ms_nodes s) (delete i (ms_net s)))) as (s1 & [[_ ->]|[_ ->]] & Hn1 & _); cbn in *; lia.
    - destruct (mn_closed n); [done|]. by injection H as <-.
    - case_decide; [|done]. injection H as <-. cbn. lia.
  Qed.

  (** A check of [w]. *)
  Lemma check_seen on o w s v u : order_ok on →
    seen (on_node w (λ n, MNode (check timeout (ms_now s) on o (mn_h n)) (mn_timer n) (mn_closed n)) s) v u =
      match seen s v u with Some t => if decide (v = w ∧ timeout < ms_now s - t) then None else Some t | None => None end.
  Proof.
    intros Ho. unfold seen. cbn. destruct (decide (v = w)) as [->|].
    - rewrite lookup_alter. destruct (ms_nodes s !! w) as [n|]; [|done]. cbn. rewrite check_nodes by done.
      destruct (hb_nodes (mn_h n) !! u); [|done]. destruct (decide (_ < _)), (decide (_ ∧ _)) as [[]|n']; try done. by destruct n'.
    - rewrite lookup_alter_ne by done. destruct (ms_nodes s !! v) as [n'|]; [|done]. cbn. destruct (hb_nodes (mn_h n') !! u); [|done].
      rewrite decide_False; [done|]. by intros [? _].
  Qed.
  Lemma check_timer on o w s v :
    timer (on_node w (λ n, MNode (check timeout (ms_now s) on o (mn_h n)) (mn_timer n) (mn_closed n)) s) v = timer s v.
  Proof.
    unfold timer. cbn. destruct (decide (v = w)) as [->|]; [|by rewrite lookup_alter_ne].
    rewrite lookup_alter. by destruct (ms_nodes s !! w).
  Qed.
  Lemma close_seen w s v u : seen (close_node interval revive w s) v u = seen s v u.
  Proof.
    unfold close_node. rewrite <- (publish_seen w MClose s v u). set (s1 := publish w MClose s). unfold seen. cbn.
    destruct (decide (v = w)) as [->|]; [|by rewrite lookup_alter_ne]. rewrite lookup_alter. by destruct (_ !! w).
  Qed.
  Lemma close_timer w s v : timer (close_node interval revive w s) v = if decide (v = w) then (λ _, TmCleared) <$> timer s w else timer s v.
  Proof.
    unfold timer, close_node. cbn. destruct (decide (v = w)) as [->|]; [|by rewrite !lookup_alter_ne].
    rewrite !lookup_alter. by destruct (ms_nodes s !! w).
  Qed.

  (** * A server that is alive and heartbeats stays known *)
  Section known.
    Context (late delay : Z) (u v : string) (a : Z).
    Context (Hi : 0 ≤ interval) (Hl : 0 ≤ late) (Hd : 0 ≤ delay) (Hsum : interval + late + delay ≤ timeout).
    Context (Huv : u ≠ v) (Hem : u ≠ emitter_uid).

    Definition N0 (s : mstate) : Prop :=
      (∀ f, f ∈ ms_net s → fl_sent f ≤ ms_now s ≤ fl_sent f + delay ∧ fl_from f ≠ fl_to f ∧ (fl_from f = u → fl_msg f ≠ MClose) ∧
        fl_to f ∈ dom (ms_nodes s)) ∧
      (timer s u ≠ Some TmCleared) ∧
      (∀ due, timer s u = Some (TmArmed due) → ms_now s ≤ due + late ∧ due ≤ ms_now s + interval).
    Definition K (s : mstate) : Prop :=
      v ∈ dom (ms_nodes s) ∧ ∃ due, timer s u = Some (TmArmed due) ∧
       ((∃ t, seen s v u = Some t ∧ due - interval ≤ t) ∨
        (∃ t f, seen s v u = Some t ∧ f ∈ ms_net s ∧ fl_to f = v ∧ fl_from f = u ∧ fl_sent f - t ≤ interval + late) ∨
        (∃ f, f ∈ ms_net s ∧ fl_to f = v ∧ fl_from f = u ∧ fl_sent f ≤ a) ∨
        (∃ f, f ∈ ms_net s ∧ fl_to f = u ∧ fl_from f = v ∧ fl_msg f = MInitial ∧ fl_sent f + delay ≤ a)).
    (** More messages do no harm. *)
    Lemma K_mono s s' : dom (ms_nodes s) ⊆ dom (ms_nodes s') → timer s' u = timer s u → seen s' v u = seen s v u →
      (∀ f, f ∈ ms_net s → f ∈ ms_net s') → K s → K s'.
    Proof.
      intros Hdom Ht Hs Hn (Hv & due & Hdu & HK). split; [by apply Hdom|]. exists due. rewrite Ht, Hs. split; [done|].
      destruct HK as [HK|[(t & f & ? & ? & E)|[(f & ? & E)|(f & ? & E)]]]; [by left|right; left|right; right; left|right; right; right]; eauto 10.
    Qed.

    Lemma publish_N0 w m s : N0 s → (w = u → m ≠ MClose) → N0 (publish w m s).
    Proof.
      intros (Hf & Ht & Hdue) Hm. split_and!.
      - intros f Hin. cbn [ms_now Heartbeat.publish base_publish on_node]. rewrite publish_dom. apply publish_net in Hin as [Hin|(E1 & E2 & E3 & E4 & E5)].
        + apply Hf. done.
        + rewrite E2, E3, E1. split_and!; try lia; try done.
      - rewrite publish_timer. case_decide; [|done]. subst. destruct (timer s w) as [[]|]; cbn; try done.
      - intros due. rewrite publish_timer. cbn [ms_now Heartbeat.publish base_publish on_node]. case_decide; [|apply Hdue]. subst.
        destruct (timer s w) as [[]|]; cbn; try done; injection 1 as <-; lia.
    Qed.
    Lemma publish_K w m s : N0 s → K s → K (publish w m s).
    Proof.
      intros (Hf & Ht & Hdue) HK. assert (Hkeep : ∀ f, f ∈ ms_net s → f ∈ ms_net (publish w m s)) by (intros f Hin; apply publish_net; by left).
      destruct (decide (u = w)) as [<-|Hne].
      - destruct HK as (Hv & due & Hdu & HK). destruct (Hdue _ Hdu) as [Hlate Hearly]. split; [by rewrite publish_dom|].
        rewrite publish_timer, publish_seen, decide_True, Hdu by done. cbn [fmap option_fmap option_map Heartbeat.sched].
        eexists. split; [done|]. right. destruct HK as [(t & -> & Hle)|[(t & f & -> & Hin & E1 & E2 & E3)|[(f & Hin & E)|(f & Hin & E)]]].
        + left. exists t, (Flight v u (ms_now s) m). split_and!; try done; [|cbn; lia]. apply publish_net. right. cbn. done.
        + left. exists t, f. split_and!; try done. by apply Hkeep.
        + right. left. exists f. split; [by apply Hkeep|done].
        + right. right. exists f. split; [by apply Hkeep|done].
      - eapply K_mono; [..|exact HK]; [by rewrite publish_dom| | |done].
        + by rewrite publish_timer, decide_False.
        + apply publish_seen.
    Qed.
    Lemma publish_start m s : N0 s → v ∈ dom (ms_nodes s) → u ∈ dom (ms_nodes s) → ms_now s ≤ a → K (publish u m s).
    Proof.
      intros (Hf & Ht & Hdue) Hv Hu Ha. split; [by rewrite publish_dom|]. rewrite publish_timer, decide_True by done.
      assert (∃ due, sched (ms_now s) <$> timer s u = Some (TmArmed due)) as [due ->].
      { unfold timer in *. apply elem_of_dom in Hu as [n En]. rewrite En in *. cbn in *. destruct (mn_timer n); try done; eauto. }
      exists due. split; [done|]. right. right. left. exists (Flight v u (ms_now s) m). split; [|done]. apply publish_net. right. cbn. auto.
    Qed.

    Lemma step_N0 s e s' : mev_ok e → e ≠ EClose u → (∀ d, e = ETick d → prompt late delay s d) → N0 s → mstep s e = Some s' →
      N0 s' ∧ (K s → K s').
    Proof.
      intros Hok Hne Hp HN H.
      destruct e as [w|w|w|w|w|w|i o|w on o|d]; cbn [Heartbeat.mstep] in H; try (apply bind_Some in H as (n & Hn & H)).
      - destruct (ms_nodes s !! w) eqn:Ew; [done|]. injection H as <-. change (N0 (joined w s) ∧ (K s → K (joined w s))).
        destruct HN as (Hf & Ht & Hdue). split.
        + split_and!.
          * intros f Hin. destruct (Hf f Hin) as (? & ? & ? & ?). split; [done|]. split; [done|]. split; [done|]. cbn. rewrite dom_insert. set_solver.
          * rewrite join_timer. by case_decide.
          * intros due. rewrite join_timer. case_decide; [done|]. apply Hdue.
        + intros HK. eapply K_mono; [..|exact HK]; [cbn; rewrite dom_insert; set_solver| | |done].
          * rewrite join_timer. case_decide; [|done]. subst. destruct HK as (_ & due & Hdu & _). unfold timer in Hdu. by rewrite Ew in Hdu.
          * by apply join_seen.
      - injection H as <-. split; [by apply publish_N0|by apply publish_K].
      - injection H as <-. split; [by apply publish_N0|by apply publish_K].
      - injection H as <-. destruct HN as (Hf & Ht & Hdue). split.
        + split_and!; try done. intros f [Hin|(E1 & E2 & E3 & E4 & E5)]%base_net; [by apply Hf|].
          cbn. rewrite E1, E2, E3. split_and!; try lia; try done.
        + apply K_mono; try done. intros f Hin. apply base_net. by left.
      - destruct (mn_timer n); try done. case_decide; [|done]. injection H as <-.
        split; [by apply publish_N0|by apply publish_K].
      - injection H as <-. assert (Hwu : u ≠ w) by (intros ->; done).
        assert (HN' : N0 (publish w MClose s)). { apply publish_N0; [done|by intros ->]. }
        assert (Ht' : timer (close_node interval revive w s) u = timer (publish w MClose s) u).
        { by rewrite close_timer, publish_timer, !decide_False by done. }
        assert (Hdom : dom (ms_nodes (close_node interval revive w s)) = dom (ms_nodes (publish w MClose s))) by apply on_node_dom.
        split.
        + destruct HN' as (Hf & Ht & Hdue). unfold N0. rewrite Ht', Hdom.
          replace (ms_net (close_node interval revive w s)) with (ms_net (publish w MClose s)) by done.
          replace (ms_now (close_node interval revive w s)) with (ms_now (publish w MClose s)) by done.
          done.
        + intros HK. apply (publish_K w MClose) in HK; [|done]. apply (K_mono (publish w MClose s)); [by rewrite Hdom|done| |done|exact HK].
          by rewrite close_seen, publish_seen.
      - injection H as <-. set (s0 := MState (ms_now s) (ms_nodes s) (delete i (ms_net s))).
        destruct (receive_cases o n s0) as (s1 & Hr & Hnow & Hnet & Hdom & Htm & Hs).
        assert (Hdel := λ f, delete_sub (ms_net s) i f).
        destruct (proj1 HN n) as (Hsent & Hself & Hcl & Hto); [by eapply elem_of_list_lookup_2|].
        assert (HN1 : N0 s1).
        { destruct HN as (Hf & Ht & Hdue). unfold N0. rewrite Hnow, Hnet, Hdom, Htm. cbn. split_and!; try done.
          intros f Hin. by apply Hf, Hdel. }
        assert (Hkeep : ∀ f, f ∈ ms_net s → f ≠ n → f ∈ ms_net s1) by (intros f Hin Hfn; rewrite Hnet; by eapply delete_other).
        destruct (decide (fl_to n = u ∧ fl_from n = v ∧ fl_msg n = MInitial)) as [(E1 & E2 & E3)|Hask].
        + destruct Hr as [[[?|?] _]|[_ ->]]; [done|congruence|]. split; [by apply publish_N0|]. intros (Hv & due & Hdu & HK).
          assert (Hse : seen s1 v u = seen s v u). { rewrite Hs, decide_False; [done|]. intros (Ev & _). congruence. }
          destruct HK as [HK|[(t & f & ? & ? & E)|[(f & ? & ? & ? & ?)|(f & ? & ? & ? & ? & ?)]]].
          * apply publish_K; [done|]. split; [by rewrite Hdom|]. exists due. rewrite Htm, Hse. auto.
          * apply publish_K; [done|]. split; [by rewrite Hdom|]. exists due. rewrite Htm, Hse. split; [done|]. right. left. exists t, f.
            split_and!; try apply E; try done. apply Hkeep; [done|]. destruct E as (? & ? & _). intros ->. congruence.
          * apply publish_K; [done|]. split; [by rewrite Hdom|]. exists due. rewrite Htm, Hse. split; [done|]. right. right. left. exists f.
            split_and!; try done. apply Hkeep; [done|]. intros ->. congruence.
          * rewrite E1. apply publish_start; [done|by rewrite Hdom|by rewrite Hdom, <- E1|]. rewrite Hnow. cbn. destruct (proj1 HN f) as (? & _); [done|]. lia.
        + assert (HK1 : K s → K s1).
          { intros (Hv & due & Hdu & HK). split; [by rewrite Hdom|]. exists due. rewrite Htm. split; [done|]. rewrite Hs. cbn [s0 ms_net ms_nodes ms_now].
            destruct (decide (v = fl_to n ∧ fl_from n = u)) as [[Ev Eu]|Hoth].
            - left. rewrite decide_True.
              + exists (ms_now s). split; [by destruct (fl_msg n); specialize (Hcl Eu)|]. destruct (proj2 (proj2 HN) _ Hdu). lia.
              + split_and!; try done; [|by left]. by apply elem_of_dom.
            - rewrite decide_False by (intros (? & ? & ? & ?); destruct Hoth; done).
              destruct HK as [HK|[(t & f & F1 & F2 & F3 & F4 & F5)|[(f & F2 & F3 & F4 & F5)|(f & F2 & F3 & F4 & F5 & F6)]]];
                [by left|right; left|right; right; left|right; right; right].
              + exists t, f. split_and!; try done. apply Hkeep; [done|]. intros ->. by destruct Hoth.
              + exists f. split_and!; try done. apply Hkeep; [done|]. intros ->. by destruct Hoth.
              + exists f. split_and!; try done. apply Hkeep; [done|]. intros ->. by destruct Hask. }
          destruct Hr as [[_ ->]|[_ ->]]; [done|]. split; [by apply publish_N0|]. intros HK. apply publish_K; [done|]. by apply HK1.
      - destruct (mn_closed n); [done|]. injection H as <-. destruct Hok as [Hon _]. split.
        + destruct HN as (Hf & Ht & Hdue). unfold N0. rewrite check_timer, on_node_dom. done.
        + intros (Hv & due & Hdu & HK). split; [by rewrite on_node_dom|]. exists due. rewrite check_timer, check_seen by done. split; [done|].
          destruct (proj2 (proj2 HN) _ Hdu) as [Hlt _].
          destruct HK as [(t & -> & Hle)|[(t & f & -> & Hin & E1 & E2 & E3)|HK]].
          * left. exists t. split; [|done]. rewrite decide_False; [done|]. intros [_ ?]. lia.
          * right. left. exists t, f. split; [|done]. rewrite decide_False; [done|]. intros [_ ?].
            destruct (proj1 HN f Hin) as (? & _). lia.
          * right. by right.
      - case_decide as H0; [|done]. injection H as <-. destruct (Hp d eq_refl) as [Hp1 Hp2].
        destruct HN as (Hf & Ht & Hdue). split.
        + unfold N0. cbn. split_and!; try done.
          * intros f Hin. specialize (Hp2 f Hin). destruct (Hf f Hin) as (? & ? & ? & ?). split_and!; try lia; try done.
          * intros due Hdu. destruct (Hdue due Hdu). unfold timer in Hdu. cbn in Hdu. destruct (ms_nodes s !! u) as [n|] eqn:E; [|done].
            injection Hdu as Hdu. specialize (Hp1 _ _ _ E Hdu). lia.
        + done.
    Qed.

    Lemma run_N0 s0 h : N0 s0 → Forall mev_ok h → EClose u ∉ h → timely interval timeout revive late delay s0 h →
      ∀ s, mrun s0 h = Some s → N0 s ∧ (K s0 → K s).
    Proof.
      intros H0. induction h as [|e h IH] using rev_ind; intros Hok Hcl Htm s Hr.
      { injection Hr as <-. done. }
      rewrite mrun_snoc in Hr. apply bind_Some in Hr as (s1 & Hr & Hs).
      apply Forall_app in Hok as [Hok [He _]%Forall_cons]. rewrite elem_of_app in Hcl.
      destruct (IH Hok) with (s := s1) as [HN HK]; [tauto| |done|].
      { intros x d b sx -> Hx. eapply Htm; [|done]. by rewrite <- app_assoc. }
      destruct (step_N0 s1 e s) as [HN' HK']; try done.
      - intros ->. apply Hcl. right. left.
      - intros d ->. eapply Htm; [done|done].
      - auto.
    Qed.
  End known.

  Lemma init_N0 late delay u t : N0 late delay u (nobody t).
  Proof. split_and!; cbn; try done. intros f []%elem_of_nil. Qed.
  Lemma timely_app late delay s0 a b s : timely interval timeout revive late delay s0 (a ++ b) → mrun s0 a = Some s →
    timely interval timeout revive late delay s0 a ∧ timely interval timeout revive late delay s b.
  Proof.
    intros H Hr. split.
    - intros x d y sx -> Hx. eapply (H x d (y ++ b)); [by rewrite <- app_assoc|done].
    - intros x d y sx -> Hx. eapply (H (a ++ x) d y); [by rewrite <- app_assoc|]. rewrite mrun_app, Hr. done.
  Qed.
  Lemma counts_seen s v u : counts s v u ↔ is_Some (seen s v u).
  Proof.
    unfold counts, seen. split.
    - intros (n & -> & Hd). by apply elem_of_dom in Hd.
    - intros [t Ht]. apply bind_Some in Ht as (n & Hn & Ht). exists n. split; [done|]. by eapply elem_of_dom_2.
  Qed.

  Lemma init_inside s0 a u b s : mrun s0 (a ++ EInit u :: b) = Some s → ∃ sa, mrun s0 a = Some sa ∧ u ∈ dom (ms_nodes sa) ∧
    mrun s0 (a ++ [EInit u]) = Some (publish u MInitial sa) ∧ mrun (publish u MInitial sa) b = Some s.
  Proof.
    rewrite mrun_app. intros (sa & Ha & H)%bind_Some. cbn [Heartbeat.mrun] in H. apply bind_Some in H as (s1 & Hs1 & Hb). exists sa.
    rewrite mrun_snoc, Ha. cbn [mbind option_bind Heartbeat.mstep] in *. apply bind_Some in Hs1 as (n & Hn & Hs1). injection Hs1 as <-.
    rewrite Hn. split_and!; try done. by eapply elem_of_dom_2.
  Qed.
  Lemma run_dom s0 h s : mrun s0 h = Some s → dom (ms_nodes s0) ⊆ dom (ms_nodes s).
  Proof.
    revert s0. induction h as [|e h IH]; intros s0 Hr; [by injection Hr as <-|]. cbn in Hr. apply bind_Some in Hr as (s1 & H1 & Hr).
    etransitivity; [by eapply step_dom|by apply IH].
  Qed.
  Lemma run_now s0 h s : mrun s0 h = Some s → ms_now s0 ≤ ms_now s.
  Proof.
    revert s0. induction h as [|e h IH]; intros s0 Hr; [by injection Hr as <-|]. cbn in Hr. apply bind_Some in Hr as (s1 & H1 & Hr).
    etransitivity; [by eapply step_now|by apply IH].
  Qed.
  Lemma armed_step s e s' u : e ≠ EClose u → mstep s e = Some s' → (∃ due, timer s u = Some (TmArmed due)) → ∃ due, timer s' u = Some (TmArmed due).
  Proof.
    intros Hne H [due Hd].
    assert (Hpub : ∀ w m s1 d1, timer s1 u = Some (TmArmed d1) → ∃ due, timer (publish w m s1) u = Some (TmArmed due)).
    { intros w m s1 d1 H1. rewrite publish_timer. case_decide; [|eauto]. subst. rewrite H1. cbn. eauto. }
    destruct e as [w|w|w|w|w|w|i o|w on o|d]; cbn [Heartbeat.mstep] in H; try (apply bind_Some in H as (n & Hn & H)).
    - destruct (ms_nodes s !! w) eqn:E; [done|]. injection H as <-. change (∃ due, timer (joined w s) u = Some (TmArmed due)).
      rewrite join_timer, decide_False; [eauto|]. intros ->. unfold timer in Hd. by rewrite E in Hd.
    - injection H as <-. eauto.
    - injection H as <-. eauto.
    - injection H as <-. eauto.
    - destruct (mn_timer n); try done. case_decide; [|done]. injection H as <-. eauto.
    - injection H as <-. rewrite close_timer, decide_False; [eauto|]. by intros ->.
    - injection H as <-. destruct (receive_cases o n (MState (ms_now s) (ms_nodes s) (delete i (ms_net s)))) as (s1 & Hr & _ & _ & _ & Htm & _).
      specialize (Htm u). destruct Hr as [[_ ->]|[_ ->]]; [rewrite Htm; eauto|]. eapply Hpub. rewrite Htm. exact Hd.
    - destruct (mn_closed n); [done|]. injection H as <-. rewrite check_timer. eauto.
    - case_decide; [|done]. injection H as <-. eauto.
  Qed.
  Lemma armed_run s0 h s u : (∃ due, timer s0 u = Some (TmArmed due)) → EClose u ∉ h → mrun s0 h = Some s → ∃ due, timer s u = Some (TmArmed due).
  Proof.
    revert s0. induction h as [|e h IH]; intros s0 H0 Hn Hr; [by injection Hr as <-|]. cbn in Hr. apply bind_Some in Hr as (s1 & H1 & Hr).
    rewrite elem_of_cons in Hn. eapply IH; [|tauto|done]. eapply armed_step; [|done|done]. intros ->. tauto.
  Qed.
  Lemma known_from late delay u v a s0 b s :
    0 ≤ interval → 0 ≤ late → 0 ≤ delay → interval + late + delay ≤ timeout → u ≠ v → u ≠ emitter_uid →
    N0 late delay u s0 → K late delay u v a s0 → Forall mev_ok b → EClose u ∉ b → timely interval timeout revive late delay s0 b →
    mrun s0 b = Some s → a + delay < ms_now s → counts s v u.
  Proof.
    intros Hi Hl Hd Hsum Huv Hem HN HK Hok Hcl Htm Hr Hnow.
    destruct (run_N0 late delay u v a Hi Hl Hd Hsum Huv Hem s0 b) with (s := s) as [HN' HK']; try done.
    apply counts_seen. destruct (HK' HK) as (_ & due & Hdu & [(x & Hx & _)|[(x & f & Hx & _)|[(f & Hf & _ & _ & E)|(f & Hf & _ & _ & _ & E)]]]); [by eauto..| |].
    - destruct (proj1 HN' f Hf) as (? & _). lia.
    - destruct (proj1 HN' f Hf) as (? & _). lia.
  Qed.
  Lemma known_l late delay t a u b a' v b' sa sa' s :
    0 ≤ interval → 0 ≤ late → 0 ≤ delay → interval + late + delay ≤ timeout →
    u ≠ v → u ≠ emitter_uid → a ++ EInit u :: b = a' ++ EInit v :: b' →
    Forall mev_ok (a ++ EInit u :: b) → EClose u ∉ a ++ EInit u :: b →
    timely interval timeout revive late delay (nobody t) (a ++ EInit u :: b) →
    mrun (nobody t) a = Some sa → mrun (nobody t) a' = Some sa' → mrun (nobody t) (a ++ EInit u :: b) = Some s →
    ms_now sa + 2 * delay < ms_now s → ms_now sa' + 2 * delay < ms_now s → counts s v u.
  Proof.
    intros Hi Hl Hd Hsum Huv Hem Heq Hok Hcl Htm Ha Ha' Hs Hnow Hnow'.
    destruct (init_inside _ _ _ _ _ Hs) as (sx & Hx & Hudom & Hini & Hb). replace sx with sa in * by congruence. clear sx Hx.
    assert (Hs' := Hs). rewrite Heq in Hs'.
    destruct (init_inside _ _ _ _ _ Hs') as (sx & Hx & Hvdom & Hini' & Hb'). replace sx with sa' in * by congruence. clear sx Hx.
    assert (HNall : ∀ x y sx, a ++ EInit u :: b = x ++ y → mrun (nobody t) x = Some sx →
      N0 late delay u sx ∧ Forall mev_ok y ∧ EClose u ∉ y ∧ timely interval timeout revive late delay sx y).
    { intros x y sx E Hx. rewrite E in *. apply Forall_app in Hok as [Hokx Hoky]. rewrite elem_of_app in Hcl.
      destruct (timely_app _ _ _ _ _ _ Htm Hx) as [Htmx Htmy]. split_and!; try done; [|tauto].
      eapply (run_N0 late delay u v 0 Hi Hl Hd Hsum Huv Hem (nobody t) x); try done; [apply init_N0|tauto]. }
    (* which Init came first? *)
    assert (Hsplit : (∃ c, a = a' ++ EInit v :: c ∧ b' = c ++ EInit u :: b) ∨ (∃ c, a' = a ++ EInit u :: c ∧ b = c ++ EInit v :: b')).
    { clear -Heq Huv. revert a' Heq. induction a as [|x a IH]; intros [|x' a'] Heq; cbn in Heq; injection Heq as E1 E2.
      - congruence.
      - subst. right. eauto.
      - subst. left. eauto.
      - subst. destruct (IH a' E2) as [(c & -> & ->)|(c & -> & ->)]; [left|right]; exists c; done. }
    destruct Hsplit as [(c & -> & ->)|(c & -> & ->)].
    - (* v is there when u starts *)
      destruct (HNall (a' ++ EInit v :: c) (EInit u :: b) sa) as (HN & [_ Hokb]%Forall_cons & Hclb & _); [done|done|].
      destruct (HNall ((a' ++ EInit v :: c) ++ [EInit u]) b (publish u MInitial sa)) as (HN' & _ & _ & Htmb); [by rewrite <- !app_assoc|done|].
      eapply (known_from late delay u v (ms_now sa) (publish u MInitial sa) b s); try done; [|by rewrite elem_of_cons in Hclb; tauto|lia].
      eapply publish_start; try done.
      destruct (init_inside _ _ _ _ _ Ha) as (sx & Hx & Hvx & _ & Hc). apply run_dom in Hc. rewrite publish_dom in Hc. by apply Hc.
    - (* u answers the INITIAL_HEARTBEAT of v *)
      destruct (HNall (a ++ EInit u :: c) (EInit v :: b') sa') as (HN & [_ Hokb]%Forall_cons & Hclb & _); [by rewrite <- !app_assoc|done|].
      destruct (HNall ((a ++ EInit u :: c) ++ [EInit v]) b' (publish v MInitial sa')) as (HN' & _ & _ & Htmb); [by rewrite <- !app_assoc|done|].
      eapply (known_from late delay u v (ms_now sa' + delay) (publish v MInitial sa') b' s); try done; [|by rewrite elem_of_cons in Hclb; tauto|lia].
      destruct (init_inside _ _ _ _ _ Ha') as (sx & Hx & Hux & Hinix & Hc).
      (* u's timer is armed since its Init *)
      destruct (HNall (a ++ [EInit u]) (c ++ EInit v :: b') (publish u MInitial sx)) as (HN1 & Hok1 & Hcl1 & Htm1); [by rewrite <- !app_assoc|done|].
      assert (Harm : ∃ due, timer sa' u = Some (TmArmed due)).
      { assert (H0 : ∃ due, timer (publish u MInitial sx) u = Some (TmArmed due)).
        { rewrite publish_timer, decide_True by done. apply elem_of_dom in Hux as [n Hn].
          destruct (HNall a (EInit u :: c ++ EInit v :: b') sx) as ((_ & Ht & _) & _); [done|done|]. unfold timer in *. rewrite Hn in *. cbn in *.
          destruct (mn_timer n); try done; eauto. }
        rewrite elem_of_app in Hcl1. eapply armed_run; [exact H0| |exact Hc]. tauto. }
      destruct Harm as [due Hdue]. split; [by rewrite publish_dom|]. exists due.
      rewrite publish_timer, decide_False by done. split; [done|]. do 3 right. exists (Flight u v (ms_now sa') MInitial). split_and!; try done.
      apply publish_net. right. cbn. split_and!; try done. apply run_dom in Hc. rewrite publish_dom in Hc. by apply Hc.
  Qed.

  (** Only servers of the cluster are ever counted. *)
  Definition members (s : mstate) : Prop :=
    (∀ f, f ∈ ms_net s → fl_from f ∈ dom (ms_nodes s) ∧ fl_to f ∈ dom (ms_nodes s)) ∧ (∀ v w, is_Some (seen s v w) → w ∈ dom (ms_nodes s) ∧ w ≠ v).
  Lemma publish_members u m s : members s → u ∈ dom (ms_nodes s) → members (publish u m s).
  Proof.
    intros (Hn & Hs) Hu. unfold members. rewrite publish_dom. split.
    - intros f [Hf|(-> & _ & _ & _ & Hto)]%publish_net; [by apply Hn|done].
    - intros v w. rewrite publish_seen. apply Hs.
  Qed.
  Lemma step_members s e s' : mev_ok e → members s → mstep s e = Some s' → members s'.
  Proof.
    intros Hok HM H. pose proof HM as (Hf & Hs).
    assert (Hin : ∀ w n, ms_nodes s !! w = Some n → w ∈ dom (ms_nodes s)). { intros w n Hw. by eapply elem_of_dom_2. }
    destruct e as [w|w|w|w|w|w|i o|w on o|d]; cbn [Heartbeat.mstep] in H; try (apply bind_Some in H as (n & Hn & H)).
    - destruct (ms_nodes s !! w) eqn:E; [done|]. injection H as <-. change (members (joined w s)). split.
      + intros f Hin'. destruct (Hf f Hin'). cbn. rewrite dom_insert. set_solver.
      + intros v x. rewrite join_seen by done. intros Hx. destruct (Hs v x Hx). cbn. rewrite dom_insert. set_solver.
    - injection H as <-. eapply publish_members; eauto.
    - injection H as <-. eapply publish_members; eauto.
    - injection H as <-. split; [|done]. intros f [?|(-> & _ & _ & _ & Hto)]%base_net; [by apply Hf|]. split; [by eapply elem_of_dom_2|done].
    - destruct (mn_timer n); try done. case_decide; [|done]. injection H as <-. eapply publish_members; eauto.
    - injection H as <-. assert (HM' : members (publish w MClose s)) by (eapply publish_members; eauto).
      destruct HM' as (Hf' & Hs'). unfold members. replace (dom (ms_nodes (close_node interval revive w s))) with (dom (ms_nodes (publish w MClose s))) by (symmetry; apply on_node_dom).
      split; [done|]. intros v x. rewrite close_seen, publish_dom. apply Hs.
    - injection H as <-. destruct (receive_cases o n (MState (ms_now s) (ms_nodes s) (delete i (ms_net s)))) as (s1 & Hr & _ & Hnet & Hdom & _ & Hse).
      assert (Hnin : n ∈ ms_net s) by (by eapply elem_of_list_lookup_2). destruct (Hf n Hnin) as [Hfr Hto].
      assert (members s1).
      { unfold members. rewrite Hdom. split.
        - intros f. rewrite Hnet. intros ?%delete_sub. by apply Hf.
        - intros v x. rewrite Hse. case_decide as Hc; [|apply Hs]. intros _. destruct Hc as (-> & _ & -> & ? & _). done. }
      destruct Hr as [[_ ->]|[_ ->]]; [done|]. apply publish_members; [done|]. by rewrite Hdom.
    - destruct (mn_closed n); [done|]. injection H as <-. unfold members. rewrite on_node_dom. split; [done|].
      intros v x. rewrite check_seen by apply Hok. specialize (Hs v x). destruct (seen s v x); [|by intros []]. intros _. apply Hs. eauto.
    - case_decide; [|done]. injection H as <-. done.
  Qed.
  Lemma run_members t h s : Forall mev_ok h → mrun (nobody t) h = Some s → members s.
  Proof.
    revert s. induction h as [|e h IH] using rev_ind; intros s Hok Hr.
    { injection Hr as <-. split; [by intros f []%elem_of_nil|]. intros v w. unfold seen. cbn. rewrite lookup_empty. by intros []. }
    rewrite mrun_snoc in Hr. apply bind_Some in Hr as (s1 & Hr & Hs). apply Forall_app in Hok as [Hok [He _]%Forall_cons].
    eapply step_members; [done|by apply IH|done].
  Qed.
  Lemma count_l late delay t h v n s :
    0 ≤ interval → 0 ≤ late → 0 ≤ delay → interval + late + delay ≤ timeout → emitter_uid ∉ dom (ms_nodes s) →
    Forall mev_ok h → (∀ u, EClose u ∉ h) → timely interval timeout revive late delay (nobody t) h →
    mrun (nobody t) h = Some s →
    (∀ u, u ∈ dom (ms_nodes s) → ∃ a b sa, h = a ++ EInit u :: b ∧ mrun (nobody t) a = Some sa ∧ ms_now sa + 2 * delay < ms_now s) →
    ms_nodes s !! v = Some n → server_count (mn_h n) = size (ms_nodes s) ∧ dom (hb_nodes (mn_h n)) = dom (ms_nodes s) ∖ {[v]}.
  Proof.
    intros Hi Hl Hd Hsum Hem Hok Hcl Htm Hr Hst Hv.
    destruct (run_members t h s Hok Hr) as (_ & Hmem).
    assert (Hvin : v ∈ dom (ms_nodes s)) by (by eapply elem_of_dom_2).
    assert (Hset : dom (hb_nodes (mn_h n)) = dom (ms_nodes s) ∖ {[v]}).
    { apply set_eq. intros u. rewrite elem_of_difference, elem_of_singleton. split.
      - intros Hu. apply Hmem. unfold seen. rewrite Hv. cbn. by apply elem_of_dom.
      - intros [Hu Hne]. destruct (Hst u Hu) as (a & b & sa & -> & Ha & Hn). destruct (Hst v Hvin) as (a' & b' & sa' & E' & Ha' & Hn').
        assert (Hc : counts s v u). { apply (known_l late delay t a u b a' v b' sa sa' s); try done. by intros ->. }
        destruct Hc as (n' & Hn'' & Hin). congruence. }
    split; [|done]. unfold server_count. rewrite <- size_dom, Hset, size_difference, size_singleton, size_dom by set_solver.
    assert (size (ms_nodes s) ≠ 0%nat). { rewrite <- size_dom. intros E%size_empty_inv. set_solver. }
    lia.
  Qed.

  (** * A server that says nothing is forgotten *)
  Definition netok (delay : Z) (s : mstate) : Prop :=
    (∀ f, f ∈ ms_net s → fl_sent f ≤ ms_now s ≤ fl_sent f + delay) ∧ (∀ v u x, seen s v u = Some x → x ≤ ms_now s).
  (** What a step does to memories: nothing new, or the arrival of a message. *)
  Lemma step_seen s e s' v u x : mev_ok e → mstep s e = Some s' → seen s' v u = Some x →
    seen s v u = Some x ∨ (x = ms_now s ∧ ∃ f, f ∈ ms_net s ∧ fl_from f = u ∧ fl_to f = v).
  Proof.
    intros Hok H.
    destruct e as [w|w|w|w|w|w|i o|w on o|d]; cbn [Heartbeat.mstep] in H; try (apply bind_Some in H as (n & Hn & H)).
    - destruct (ms_nodes s !! w) eqn:E; [done|]. injection H as <-. intros Hx. left. by rewrite <- (join_seen w s v u).
    - injection H as <-. rewrite publish_seen. auto.
    - injection H as <-. rewrite publish_seen. auto.
    - injection H as <-. auto.
    - destruct (mn_timer n); try done. case_decide; [|done]. injection H as <-. rewrite publish_seen. auto.
    - injection H as <-. rewrite close_seen. auto.
    - injection H as <-. destruct (receive_cases o n (MState (ms_now s) (ms_nodes s) (delete i (ms_net s)))) as (s1 & Hr & _ & _ & _ & _ & Hse).
      assert (E : seen (receive interval revive o n (MState (ms_now s) (ms_nodes s) (delete i (ms_net s)))) v u = seen s1 v u).
      { destruct Hr as [[_ ->]|[_ ->]]; [done|]. apply publish_seen. }
      rewrite E, Hse. case_decide as Hc; [|auto]. destruct Hc as (-> & _ & -> & _). cbn. intros Hx. right. split.
      + destruct (fl_msg n); congruence.
      + exists n. split_and!; try done. by eapply elem_of_list_lookup_2.
    - destruct (mn_closed n); [done|]. injection H as <-. rewrite check_seen by apply Hok. destruct (seen s v u); [|done]. case_decide; [done|auto].
    - case_decide; [|done]. injection H as <-. auto.
  Qed.
  (** What a step does to the messages. *)
  Lemma step_net s e s' f : mstep s e = Some s' → f ∈ ms_net s' → f ∈ ms_net s ∨ fl_sent f = ms_now s.
  Proof.
    destruct e as [w|w|w|w|w|w|i o|w on o|d]; cbn [Heartbeat.mstep]; intros H; try (apply bind_Some in H as (n & Hn & H)).
    - destruct (ms_nodes s !! w); [done|]. injection H as <-. auto.
    - injection H as <-. intros [?|(? & ? & _)]%publish_net; auto.
    - injection H as <-. intros [?|(? & ? & _)]%publish_net; auto.
    - injection H as <-. intros [?|(? & ? & _)]%base_net; auto.
    - destruct (mn_timer n); try done. case_decide; [|done]. injection H as <-. intros [?|(? & ? & _)]%publish_net; auto.
    - injection H as <-. intros Hin. change (f ∈ ms_net (publish w MClose s)) in Hin. apply publish_net in Hin as [?|(? & ? & _)]; auto.
    - injection H as <-. destruct (receive_cases o n (MState (ms_now s) (ms_nodes s) (delete i (ms_net s)))) as (s1 & Hr & Hnow & Hnet & _).
      cbn in Hnow. destruct Hr as [[_ ->]|[_ ->]].
      + rewrite Hnet. intros ?%delete_sub. by left.
      + intros [Hin|(? & ? & _)]%publish_net; [left|right; congruence]. rewrite Hnet in Hin. by apply delete_sub in Hin.
    - destruct (mn_closed n); [done|]. injection H as <-. auto.
    - case_decide; [|done]. injection H as <-. auto.
  Qed.
  Lemma step_new s e s' f : mstep s e = Some s' → f ∈ ms_net s' → f ∈ ms_net s ∨ ((∀ u, e ≠ EInit u) → fl_msg f ≠ MInitial).
  Proof.
    destruct e as [w|w|w|w|w|w|i o|w on o|d]; cbn [Heartbeat.mstep]; intros H; try (apply bind_Some in H as (n & Hn & H)).
    - destruct (ms_nodes s !! w); [done|]. injection H as <-. auto.
    - injection H as <-. intros _. right. intros []. done.
    - injection H as <-. intros [?|(? & ? & -> & _)]%publish_net; auto.
    - injection H as <-. intros [?|(? & ? & -> & _)]%base_net; auto.
    - destruct (mn_timer n); try done. case_decide; [|done]. injection H as <-. intros [?|(? & ? & -> & _)]%publish_net; auto.
    - injection H as <-. intros Hin. change (f ∈ ms_net (publish w MClose s)) in Hin. apply publish_net in Hin as [?|(? & ? & -> & _)]; auto.
    - injection H as <-. destruct (receive_cases o n (MState (ms_now s) (ms_nodes s) (delete i (ms_net s)))) as (s1 & Hr & Hnow & Hnet & _).
      destruct Hr as [[_ ->]|[_ ->]].
      + rewrite Hnet. intros ?%delete_sub. by left.
      + intros [Hin|(? & ? & -> & _)]%publish_net; [left|auto]. rewrite Hnet in Hin. by apply delete_sub in Hin.
    - destruct (mn_closed n); [done|]. injection H as <-. auto.
    - case_decide; [|done]. injection H as <-. auto.
  Qed.
  Lemma step_clock s e s' : mstep s e = Some s' → ms_now s' = ms_now s ∨ ∃ d, e = ETick d ∧ ms_now s' = ms_now s + d ∧ ms_net s' = ms_net s.
  Proof.
    destruct e as [w|w|w|w|w|w|i o|w on o|d]; cbn [Heartbeat.mstep]; intros H; try (apply bind_Some in H as (n & Hn & H)).
    - destruct (ms_nodes s !! w); [done|]. injection H as <-. by left.
    - injection H as <-. by left.
    - injection H as <-. by left.
    - injection H as <-. by left.
    - destruct (mn_timer n); try done. case_decide; [|done]. injection H as <-. by left.
    - injection H as <-. by left.
    - injection H as <-. destruct (receive_cases o n (MState (ms_now s) (ms_nodes s) (delete i (ms_net s)))) as (s1 & Hr & Hnow & _).
      left. by destruct Hr as [[_ ->]|[_ ->]].
    - destruct (mn_closed n); [done|]. injection H as <-. by left.
    - case_decide; [|done]. injection H as <-. right. eauto.
  Qed.
  Lemma step_netok late delay s e s' : 0 ≤ delay → mev_ok e → (∀ d, e = ETick d → prompt late delay s d) →
    netok delay s → mstep s e = Some s' → netok delay s'.
  Proof.
    intros H0 Hok Hp [Hf Hs] H. pose proof (step_now _ _ _ H) as Hnow. split.
    - intros f Hin. destruct (step_clock _ _ _ H) as [E|(d & -> & E & En)].
      + rewrite E. destruct (step_net _ _ _ _ H Hin) as [Hin'|E']; [by apply Hf|lia].
      + rewrite En in Hin. destruct (Hp d eq_refl) as [_ Hp2]. specialize (Hp2 f Hin). specialize (Hf f Hin). lia.
    - intros v u x Hx. destruct (step_seen _ _ _ _ _ _ Hok H Hx) as [Hx'|[-> _]]; [|done]. specialize (Hs _ _ _ Hx'). lia.
  Qed.
  Lemma run_netok late delay s0 h s : 0 ≤ delay → Forall mev_ok h → timely interval timeout revive late delay s0 h →
    netok delay s0 → mrun s0 h = Some s → netok delay s.
  Proof.
    intros Hd. revert s0. induction h as [|e h IH]; intros s0 Hok Htm H0 Hr; [by injection Hr as <-|].
    cbn [Heartbeat.mrun] in Hr. apply bind_Some in Hr as (s1 & Hs & Hr). apply Forall_cons in Hok as [He Hok].
    eapply IH; [done| | |done].
    - intros x d y sx -> Hx. eapply (Htm (e :: x)); [done|]. cbn [Heartbeat.mrun]. by rewrite Hs.
    - eapply step_netok; try done. intros d ->. by eapply (Htm []).
  Qed.
  Lemma init_netok delay t : netok delay (nobody t).
  Proof.
    split; [by intros f []%elem_of_nil|]. intros v u x. unfold seen. cbn. by rewrite lookup_empty.
  Qed.

  Definition quiet (delay : Z) (u : string) (t1 : Z) (s : mstate) : Prop :=
    (∀ f, f ∈ ms_net s → fl_from f = u → fl_sent f ≤ t1) ∧ (∀ v x, seen s v u = Some x → x ≤ t1 + delay).
  Lemma quiet_run late delay u t1 s0 h s : 0 ≤ delay → Forall mev_ok h → timely interval timeout revive late delay s0 h →
    says_nothing interval timeout revive s0 h u → netok delay s0 → quiet delay u t1 s0 → mrun s0 h = Some s →
    quiet delay u t1 s ∧ netok delay s ∧ ms_now s0 ≤ ms_now s ∧ (∀ v, t1 + delay < ms_now s0 → seen s0 v u = None → seen s v u = None).
  Proof.
    intros Hd. revert s0. induction h as [|e h IH]; intros s0 Hok Htm Hsay Hn Hq Hr; [by injection Hr as <-|].
    cbn [Heartbeat.mrun] in Hr. apply bind_Some in Hr as (s1 & Hs & Hr). apply Forall_cons in Hok as [He Hok].
    pose proof (step_now _ _ _ Hs) as Hnow. destruct (IH s1) as (Hq' & Hn' & Hnow' & Hgone); try done.
    - intros x d y sx -> Hx. eapply (Htm (e :: x)); [done|]. cbn [Heartbeat.mrun]. by rewrite Hs.
    - intros x e' y sx sx' -> Hx. eapply (Hsay (e :: x)); [done|]. cbn [Heartbeat.mrun]. by rewrite Hs.
    - eapply step_netok; try done. intros d ->. by eapply (Htm []).
    - destruct Hq as [Hq1 Hq2]. split.
      + intros f Hin Hf. apply Hq1; [|done]. by eapply (Hsay [] e h s0 s1).
      + intros v x Hx. destruct (step_seen _ _ _ _ _ _ He Hs Hx) as [Hx'|[-> (f & Hf & Hfr & _)]]; [by eapply Hq2|].
        specialize (Hq1 f Hf Hfr). destruct (proj1 Hn f Hf). lia.
    - split_and!; try done; [lia|]. intros v Hlt Hnone. apply Hgone; [lia|].
      destruct (seen s1 v u) as [x|] eqn:Hx; [|done]. destruct (step_seen _ _ _ _ _ _ He Hs Hx) as [Hx'|[-> (f & Hf & Hfr & _)]]; [congruence|].
      destruct Hq as [Hq1 _]. specialize (Hq1 f Hf Hfr). destruct (proj1 Hn f Hf). lia.
  Qed.
  Lemma says_app s0 a b u s : says_nothing interval timeout revive s0 (a ++ b) u → mrun s0 a = Some s →
    says_nothing interval timeout revive s0 a u ∧ says_nothing interval timeout revive s b u.
  Proof.
    intros H Hr. split.
    - intros x e y sx sx' -> Hx. eapply (H x e (y ++ b)); [by rewrite <- app_assoc|done].
    - intros x e y sx sx' -> Hx. eapply (H (a ++ x) e y); [by rewrite <- app_assoc|]. rewrite mrun_app, Hr. done.
  Qed.
  Lemma forgotten_l late delay t h s1 a v on o b sc s u :
    0 ≤ delay → Forall mev_ok (h ++ a ++ ECheck v on o :: b) →
    timely interval timeout revive late delay (nobody t) (h ++ a ++ ECheck v on o :: b) →
    mrun (nobody t) h = Some s1 → mrun s1 a = Some sc → mrun s1 (a ++ ECheck v on o :: b) = Some s →
    says_nothing interval timeout revive s1 (a ++ ECheck v on o :: b) u →
    0 ≤ timeout → ms_now s1 + delay + timeout < ms_now sc → ¬ counts s v u.
  Proof.
    intros Hd Hok Htm Hh Ha Hs Hsay Ht Hlong.
    apply Forall_app in Hok as [Hok1 [Hok2 [Hok3 Hok4]%Forall_cons]%Forall_app].
    destruct (timely_app _ _ _ _ _ _ Htm Hh) as [Htm1 Htm2]. destruct (timely_app _ _ _ _ _ _ Htm2 Ha) as [Htm3 Htm4].
    destruct (says_app _ _ _ _ _ Hsay Ha) as [Hsay1 Hsay2].
    rewrite mrun_app, Ha in Hs. cbn [mbind option_bind Heartbeat.mrun] in Hs. apply bind_Some in Hs as (s2 & Hs2 & Hs).
    assert (Hn1 : netok delay s1) by (apply (run_netok late delay (nobody t) h); try done; apply init_netok).
    assert (Hq1 : quiet delay u (ms_now s1) s1).
    { split; [intros f Hf _; by apply Hn1|]. intros w x Hx. assert (x ≤ ms_now s1) by (by eapply Hn1). lia. }
    destruct (quiet_run late delay u (ms_now s1) s1 a sc) as ([Hqa Hqb] & Hnc & Hnow & _); try done.
    assert (Hn2 : netok delay s2). { apply (step_netok late delay sc (ECheck v on o)); done. }
    assert (Hnow2 := step_now _ _ _ Hs2).
    assert (Hq2 : quiet delay u (ms_now s1) s2).
    { split.
      - intros f Hf Hfr. apply Hqa; [|done]. eapply (Hsay2 [] _ b sc s2); done.
      - intros w x Hx. destruct (step_seen _ _ _ _ _ _ Hok3 Hs2 Hx) as [Hx'|[-> (f & Hf & Hfr & _)]]; [by eapply Hqb|].
        specialize (Hqa f Hf Hfr). destruct (proj1 Hnc f Hf). lia. }
    assert (Hnone : seen s2 v u = None).
    { cbn [Heartbeat.mstep] in Hs2. apply bind_Some in Hs2 as (n & Hn & Hs2). destruct (mn_closed n); [done|]. injection Hs2 as <-.
      rewrite check_seen by apply Hok3. destruct (seen sc v u) as [x|] eqn:E; [|done]. apply Hqb in E. rewrite decide_True; [done|]. split; [done|lia]. }
    destruct (quiet_run late delay u (ms_now s1) s2 b s) as (_ & _ & _ & Hgone); try done.
    - intros x d y sx -> Hx. eapply (Htm4 (ECheck v on o :: x)); [done|]. cbn [Heartbeat.mrun]. by rewrite Hs2.
    - intros x e y sx sx' -> Hx. eapply (Hsay2 (ECheck v on o :: x)); [done|]. cbn [Heartbeat.mrun]. by rewrite Hs2.
    - rewrite counts_seen, Hgone; [by intros []| |done]. lia.
  Qed.

  (** A closed adapter that is left alone says nothing. *)
  Lemma closed_l s0 u s1 h : mstep s0 (EClose u) = Some s1 →
    left_alone interval timeout revive s1 h u → says_nothing interval timeout revive s1 h u.
  Proof.
    intros Hc. assert (H1 : timer s1 u = Some TmCleared).
    { cbn [Heartbeat.mstep] in Hc. apply bind_Some in Hc as (n & Hn & Hc). injection Hc as <-. rewrite close_timer, decide_True by done.
      unfold timer. by rewrite Hn. }
    clear Hc s0. intros (Ha1 & Ha2 & Ha3 & Ha4 & Ha5) a e b s s' -> Hr Hs f Hf Hfr.
    assert (Hstep : ∀ sx e' sx', e' ∈ a ++ e :: b → (∀ i o g, e' = EDeliver i o → ms_net sx !! i = Some g → fl_to g = u → fl_msg g ≠ MInitial) →
        mstep sx e' = Some sx' → timer sx u = Some TmCleared →
        timer sx' u = Some TmCleared ∧ ∀ g, g ∈ ms_net sx' → fl_from g = u → g ∈ ms_net sx).
    { clear - Ha1 Ha2 Ha3 Ha4. intros s e' s' Hin Hdel Hs Ht.
      destruct e' as [w|w|w|w|w|w|i o|w on o|d]; cbn [Heartbeat.mstep] in Hs; try (apply bind_Some in Hs as (n & Hn & Hs)).
      - destruct (ms_nodes s !! w) eqn:E; [done|]. injection Hs as <-. split; [|done].
        change (timer (joined w s) u = Some TmCleared). rewrite join_timer. case_decide; [|done]. subst. unfold timer in Ht. by rewrite E in Ht.
      - assert (u ≠ w) by (intros ->; done). injection Hs as <-. rewrite publish_timer, decide_False by done. split; [done|].
        intros g [?|(-> & _)]%publish_net; done.
      - assert (u ≠ w) by (intros ->; done). injection Hs as <-. rewrite publish_timer, decide_False by done. split; [done|].
        intros g [?|(-> & _)]%publish_net; done.
      - assert (u ≠ w) by (intros ->; done). injection Hs as <-. split; [done|]. intros g [?|(-> & _)]%base_net; done.
      - destruct (mn_timer n) eqn:Etm; try done. case_decide; [|done]. injection Hs as <-.
        assert (u ≠ w). { intros ->. unfold timer in Ht. rewrite Hn in Ht. cbn in Ht. by rewrite Etm in Ht. }
        rewrite publish_timer, decide_False by done. split; [done|]. intros g [?|(-> & _)]%publish_net; done.
      - assert (u ≠ w) by (intros ->; done). injection Hs as <-. rewrite close_timer, decide_False by done. split; [done|].
        intros g Hg. change (g ∈ ms_net (publish w MClose s)) in Hg. apply publish_net in Hg as [?|(-> & _)]; done.
      - injection Hs as <-. specialize (Hdel _ _ _ eq_refl Hn).
        destruct (receive_cases o n (MState (ms_now s) (ms_nodes s) (delete i (ms_net s)))) as (s1 & Hr & _ & Hnet & _ & Htm & _).
        destruct Hr as [[_ ->]|[Em ->]].
        + rewrite Htm, Hnet. split; [done|]. intros g ?%delete_sub. done.
        + assert (u ≠ fl_to n) by (intros ->; by apply Hdel). rewrite publish_timer, decide_False, Htm by done. split; [done|].
          intros g [Hg|(-> & _)]%publish_net; [|done]. intros _. rewrite Hnet in Hg. by apply delete_sub in Hg.
      - destruct (mn_closed n); [done|]. injection Hs as <-. rewrite check_timer. done.
      - case_decide; [|done]. injection Hs as <-. done. }
    assert (Hall : ∀ x y sx, a = x ++ y → mrun s1 x = Some sx → timer sx u = Some TmCleared).
    { clear Hf Hfr. induction x as [|e' x IH] using rev_ind; intros y sx -> Hx; [by injection Hx as <-|].
      rewrite mrun_snoc in Hx. apply bind_Some in Hx as (sy & Hx & Hy). eapply Hstep; [|..|exact Hy|eapply IH; [by rewrite <- app_assoc|done]].
      - set_solver.
      - intros i o g -> Hg. eapply (Ha5 x i o (y ++ e :: b)); [by rewrite <- !app_assoc|done|done]. }
    eapply Hstep; [| |exact Hs|eapply (Hall a []); [by rewrite app_nil_r|done]|done|done].
    - set_solver.
    - intros i o g -> Hg. by eapply (Ha5 a i o b).
  Qed.
End proofs.
