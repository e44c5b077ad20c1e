(** Proofs for C67: lifecycle calls made in turn are the operations of the server. *)
From Verif Require Import Base GoTypes Rooms RoomsSpec RoomsProofs Adapter AdapterSpec Session System SystemSpec SystemProofs SystemLife SystemPolite SystemClaims SystemNsp ServerSpec ServerProofs ServerSteps.
From Verif Require Import LifeConc TurnSpec AloneSpec.

#[local] Arguments those : simpl never.
#[local] Arguments ServerSpec.depart : simpl never.
#[local] Arguments rooms_at : simpl never.
#[local] Arguments seen : simpl never.

(** ** The interleaving model: one call to its end *)
(** A socket between two calls. *)
Definition quiet (z : bool * place * gset room) : lstate :=
  let h := bool_decide (z.1.2 = Here) in LState z.1.1 h (negb (bool_decide (z.1.2 = Gone))) z.2 h h h.
Definition byes (r : string) : list lev := [VDisconnecting r; VDisconnect r].
Definition l_after (t : lcall) (z : bool * place * gset room) : (bool * place * gset room) * list lev :=
  let '(o, p, R) := z in
  let close o' pk r := match p with Here => ((o', Gone, ∅), (if pk && o then [VLeavePacket] else []) ++ byes r) | _ => (z, []) end in
  match t with
  | LcConnect own refused => if o then if refused then ((o, Gone, ∅), [VDenied]) else ((o, Here, {[own]} ∪ R), [VPacket; VConnect; VConnection]) else ((o, Gone, ∅), [])
  | LcTransport r => match p with Here => close false false r | _ => ((false, p, R), []) end
  | LcPacket => close o false "client namespace disconnect"
  | LcDisconnect => close o true server_reason
  | LcDisconnectAll => close false true server_reason
  | LcClient => match p with Here => close false true server_reason | _ => ((false, p, R), []) end
  | LcShutdown => close o false "server shutting down"
  | LcJoin rs => match p with Gone => (z, []) | _ => ((o, p, rs ∪ R), []) end
  | LcLeave r => ((o, p, R ∖ {[r]}), [])
  end.
Fixpoint l_iter (n : nat) (t : lcall) (p : lpc) (s : lstate) : lpc * lstate * list lev :=
  match n with
  | 0 => (p, s, [])
  | S n => let x := lc_step1 t p s in let y := l_iter n t x.1.1 x.1.2 in (y.1, option_list x.2 ++ y.2)
  end.
Lemma l_iter_end t z : (match t with LcConnect _ _ => z.1.2 = Waiting | _ => True end) →
  l_iter 40 t QStart (quiet z) = (QDone, quiet (l_after t z).1, (l_after t z).2).
Proof. destruct z as [[o p] R]. intros H. destruct t as [own []| | | | | | | |]; destruct o, p; try discriminate H; reflexivity. Qed.
Lemma l_iter_done n t s : l_iter n t QDone s = (QDone, s, []).
Proof. induction n as [|n IH]; [done|]. cbn. by rewrite IH. Qed.
Lemma l_iter_plus n m t p s : l_iter (n + m) t p s = let y := l_iter n t p s in let z := l_iter m t y.1.1 y.1.2 in (z.1, y.2 ++ z.2).
Proof.
  revert p s. induction n as [|n IH]; intros p s; cbn [l_iter plus]; [cbv zeta; cbn [fst snd app]; destruct (l_iter m t p s) as [[? ?] ?]; reflexivity|]. rewrite IH. cbn. by rewrite app_assoc.
Qed.
Lemma l_iter_any n m t p s : (l_iter n t p s).1.1 = QDone → (l_iter m t p s).1.1 = QDone → l_iter n t p s = l_iter m t p s.
Proof.
  intros Hn Hm. assert (∀ a b, (l_iter a t p s).1.1 = QDone → l_iter (a + b) t p s = l_iter a t p s) as H.
  { intros a b Ha. rewrite l_iter_plus. cbv zeta. rewrite Ha, l_iter_done. cbn. rewrite app_nil_r. destruct (l_iter a t p s) as [[??]?]. cbn in *. by subst. }
  rewrite <- (H n m Hn), <- (H m n Hm). f_equal. lia.
Qed.
Lemma lc_block n i c t p : lf_calls c !! i = Some (t, p) → let y := l_iter n t p (lf_state c) in
  foldl lc_step c (replicate n i) = LConf y.1.2 (<[i := (t, y.1.1)]> (lf_calls c)) (lf_log c ++ ((λ e, (i, e)) <$> y.2)).
Proof.
  cbv zeta. revert c p. induction n as [|n IH]; intros c p Hi; cbn [replicate foldl l_iter].
  - cbn. rewrite app_nil_r, list_insert_id by done. by destruct c.
  - unfold lc_step at 2. rewrite Hi. rewrite (IH _ (lc_step1 t p (lf_state c)).1.1) by (cbn; apply list_lookup_insert; by eapply lookup_lt_Some).
    cbn. rewrite list_insert_insert, <- app_assoc. f_equal. f_equal. rewrite fmap_app. f_equal. by destruct (lc_step1 t p (lf_state c)).2.
Qed.
Lemma lc_block_end n i c t z : lf_calls c !! i = Some (t, QStart) → lf_state c = quiet z → (match t with LcConnect _ _ => z.1.2 = Waiting | _ => True end) →
  (∃ t', lf_calls (foldl lc_step c (replicate n i)) !! i = Some (t', QDone)) →
  foldl lc_step c (replicate n i) = LConf (quiet (l_after t z).1) (<[i := (t, QDone)]> (lf_calls c)) (lf_log c ++ ((λ e, (i, e)) <$> (l_after t z).2)).
Proof.
  intros Hi Hs Hw (t' & He). rewrite (lc_block n i c t QStart Hi) in He |- *. cbn in He. rewrite list_lookup_insert in He by (by eapply lookup_lt_Some).
  rewrite Hs in *. assert (l_iter n t QStart (quiet z) = l_iter 40 t QStart (quiet z)) as ->; [|by rewrite l_iter_end].
  apply l_iter_any; [by inversion He|]. by rewrite l_iter_end.
Qed.

(** ** The reference server: what becomes of one socket *)
Section one.
  Context (csr skip clean : bool).
  Definition z_of (v : userver) (k : nat) : bool * place * gset room :=
    match us_socks v !! k with Some b => (u_open v (u_client b), u_place b, u_rooms b) | None => (false, Gone, ∅) end.
  Definition heard_u (v : userver) (k : nat) (l : list eff) : list lev :=
    match us_socks v !! k with Some b => omap (heard k (u_client b) (u_name v (u_nsp b))) l | None => [] end.
  Definition does_u (v : userver) (k : nat) (t : lcall) (o : op) : Prop :=
    ∃ b, us_socks v !! k = Some b ∧
    match t, o with
    | LcConnect own refused, OVerdict j err => j = k ∧ own = u_id b ∧ (refused = true ↔ err ≠ None)
    | LcTransport r, OTransport c r' => c = u_client b ∧ r' = r
    | LcPacket, OTask i => ∃ p, us_tasks v !! i = Some (k, p) ∧ p_type p = DISCONNECT
    | LcDisconnect, ODisconnect j false => j = k
    | LcDisconnectAll, ODisconnect j true => j = k
    | LcClient, ODisconnect j true => u_place b = Here ∧ ∃ b', us_socks v !! j = Some b' ∧ u_client b' = u_client b ∧ u_place b' = Here
    | LcShutdown, OShutdown => us_names v !! u_name v (u_nsp b) = Some (u_nsp b)
    | LcJoin rs, OJoin j l => j = k ∧ rs = list_to_set l
    | LcLeave r, OLeave j r' => j = k ∧ r' = r
    | _, _ => False
    end.
  Lemma omap_byes k c m r K : NoDup K → omap (heard k c m) (K ≫= bye csr r) = if decide (k ∈ K) then byes r else [].
  Proof.
    induction 1 as [|j K Hj _ IH]; [done|]. cbn [mbind list_bind]. rewrite omap_app. rewrite IH. clear IH.
    assert (omap (heard k c m) (bye csr r j) = if decide (j = k) then byes r else []) as ->.
    { unfold bye. destruct (csr && _); cbn; by destruct (decide (j = k)). }
    destruct (decide (j = k)) as [->|Hne].
    - rewrite decide_False by done. rewrite decide_True by (by left). done.
    - cbn [app]. apply decide_ext. rewrite elem_of_cons. naive_solver.
  Qed.
  Lemma z_depart K v k b : us_socks v !! k = Some b → z_of (depart clean K v) k = if decide (k ∈ K) then (u_open v (u_client b), Gone, ∅) else z_of v k.
  Proof. intros Hb. unfold z_of. rewrite depart_lookup, Hb. cbn. by case_decide. Qed.
  Lemma those_of k b P v : us_socks v !! k = Some b → k ∈ those P v ↔ P b = true.
  Proof. intros Hb. rewrite elem_of_those. split; [intros (b' & Hb' & ?); congruence|eauto]. Qed.
  Lemma here_place b : here b = true ↔ u_place b = Here.
  Proof. apply bool_decide_eq_true. Qed.
  Lemma z_client c f v k : (∀ cl, uc_open (f cl) = uc_open cl) → z_of (to_client c f v) k = z_of v k.
  Proof.
    intros Hf. unfold z_of, to_client. cbn [us_socks with_clients]. destruct (us_socks v !! k) as [b|]; [|done]. do 2 f_equal. unfold u_open. cbn. rewrite alter_lookup.
    case_decide as Hc; [|done]. rewrite Hc. destruct (us_clients v !! c); cbn; [by rewrite Hf|done].
  Qed.
  Lemma shut_open c v : u_open (to_client c shut v) c = false.
  Proof. unfold u_open, to_client. cbn. rewrite alter_lookup, decide_True by done. by destruct (us_clients v !! c). Qed.
  Lemma packets_heard k b K : ∀ u : ustate, us_socks u.1 !! k = Some b → NoDup K →
    (∀ j b', j ∈ K → us_socks u.1 !! j = Some b' → u_client b' = u_client b → u_name u.1 (u_nsp b') = u_name u.1 (u_nsp b) → j = k) →
    (foldl (u_packet DISCONNECT []) u K).1 = u.1 ∧
    omap (heard k (u_client b) (u_name u.1 (u_nsp b))) (foldl (u_packet DISCONNECT []) u K).2 =
      omap (heard k (u_client b) (u_name u.1 (u_nsp b))) u.2 ++ if decide (k ∈ K ∧ u_open u.1 (u_client b) = true) then [VLeavePacket] else [].
  Proof.
    induction K as [|j K IH]; intros u Hb Hnd Hk; cbn [foldl].
    - split; [done|]. rewrite decide_False by (intros [H _]; by apply elem_of_nil in H). by rewrite app_nil_r.
    - apply NoDup_cons in Hnd as [Hj Hnd]. assert ((u_packet DISCONNECT [] u j).1 = u.1) as E1.
      { unfold u_packet, u_write. destruct (us_socks u.1 !! j); [|done]. by destruct (u_open u.1 _). }
      destruct (IH (u_packet DISCONNECT [] u j)) as [I1 I2]; [by rewrite E1|done|intros j' b' Hj'; rewrite E1; apply Hk; by right|].
      rewrite E1 in I1, I2. split; [done|]. rewrite I2. clear I1 I2 IH.
      destruct (decide (j = k)) as [->|Hne].
      + rewrite (decide_False (P := k ∈ K ∧ _)) by (by intros [? _]). rewrite app_nil_r. unfold u_packet, u_write. rewrite Hb. destruct (u_open u.1 (u_client b)).
        * rewrite decide_True by (split; [by left|done]). cbn [say snd]. rewrite omap_app. cbn. by rewrite decide_True.
        * rewrite decide_False by (by intros [_ ?]). by rewrite app_nil_r.
      + assert (omap (heard k (u_client b) (u_name u.1 (u_nsp b))) (u_packet DISCONNECT [] u j).2 = omap (heard k (u_client b) (u_name u.1 (u_nsp b))) u.2) as ->.
        { unfold u_packet, u_write. destruct (us_socks u.1 !! j) as [b'|] eqn:Ej; [|done]. destruct (u_open u.1 (u_client b')); [|done]. cbn [say snd]. rewrite omap_app. cbn. rewrite decide_False; [by rewrite app_nil_r|].
          intros [Hc Hn]. apply Hne. apply (Hk j b'); [by left|done..]. }
        f_equal. apply decide_ext. rewrite elem_of_cons. naive_solver.
  Qed.
  Lemma u_one os o t v k b : us_socks v !! k = Some b → (∀ j b', us_socks v !! j = Some b' → u_client b' = u_client b → u_name v (u_nsp b') = u_name v (u_nsp b) → here b = true → here b' = true → j = k) →
    (match t with LcConnect _ _ => u_place b = Waiting | _ => True end) → does_u v k t o →
    z_of (u_step csr skip clean (os, o) v).1 k = (l_after t (z_of v k)).1 ∧ heard_u v k (u_step csr skip clean (os, o) v).2 ≡ₚ (l_after t (z_of v k)).2.
  Proof.
    intros Hb Ha Hw (b' & Hb' & Hd). rewrite Hb in Hb'. injection Hb' as <-.
    assert (z_of v k = (u_open v (u_client b), u_place b, u_rooms b)) as Hz by (unfold z_of; by rewrite Hb).
    assert (∀ l, heard_u v k l = omap (heard k (u_client b) (u_name v (u_nsp b))) l) as Hh by (intros; unfold heard_u; by rewrite Hb).
    rewrite Hh, Hz. unfold u_step. cbn [fst snd].
    destruct t as [own refused|r| | | | | |rs|r]; destruct o as [? ? ? ?|? ? ? ?|? ? ? ?|j err|i|?|c r'|?|j l|j r'|j st|? ? ?|? ?|? ?|? ?|? ?|? ?|? ? ? ?|? ? ?|? ? ?|? ? ?|? ? ? ?|? ? ?|]; try done; try (destruct st; done).
    - (* verdict *)
      destruct Hd as (-> & -> & He). unfold u_verdict. cbn [fst]. rewrite Hb. cbn [l_after]. destruct (u_open v (u_client b)) eqn:Eo.
      + destruct err as [e|].
        * assert (refused = true) as -> by (by apply He). unfold u_packet. cbn [on_u fst]. rewrite depart_lookup, Hb. cbn [fmap option_fmap option_map]. rewrite decide_True by (by left).
          unfold u_write. cbn [on_u fst be u_client u_nsp]. assert (u_open (depart clean [k] v) (u_client b) = true) as -> by done. cbn [say fst snd on_u].
          rewrite (z_depart [k] v k b Hb), decide_True, Eo by (by left). split; [done|]. cbn. by rewrite decide_True.
        * assert (refused = false) as ->. { destruct refused; [|done]. by destruct (proj1 He eq_refl). }
          unfold u_connect. cbn [fst]. rewrite Hb. cbv zeta. cbn [fst snd app]. split.
          -- unfold z_of. cbn [us_socks with_socks to_client with_clients]. rewrite list_lookup_alter, Hb. cbn. do 2 f_equal. unfold u_open. cbn. rewrite alter_lookup. rewrite decide_True by done.
             unfold u_open in Eo. destruct (us_clients v !! u_client b); [|done]. done.
          -- cbn. rewrite !decide_True by done. done.
      + cbn [on_u fst snd]. rewrite (z_depart [k] v k b Hb), decide_True, Eo by (by left). done.
    - (* transport *)
      destruct Hd as [-> ->]. unfold u_conn_closed, u_close. cbn [on_u fst snd]. set (v1 := to_client (u_client b) shut v).
      assert (∀ P, those P v1 = those P v) as Ht by done. rewrite Ht. rewrite omap_app. cbn [omap app list_omap]. rewrite omap_byes by apply those_NoDup.
      rewrite (z_depart _ _ k b) by done.
      assert (u_open (to_client (u_client b) no_timer v1) (u_client b) = false) as ->.
      { pose proof (shut_open (u_client b) v) as H. unfold u_open in *. cbn in *. rewrite alter_lookup, decide_True by done. fold v1 in H. revert H. unfold v1, to_client. cbn. rewrite alter_lookup, decide_True by done. by destruct (us_clients v !! u_client b). }
      rewrite z_client by done. cbn [l_after].
      assert (k ∈ those (of_conn (u_client b)) v ↔ u_place b = Here) as Hk.
      { rewrite (those_of k b) by done. unfold of_conn. rewrite bool_decide_true, andb_true_r by done. apply here_place. }
      assert (z_of v1 k = (false, u_place b, u_rooms b)) as Hz1. { unfold z_of. change (us_socks v1) with (us_socks v). rewrite Hb. unfold v1. by rewrite shut_open. }
      destruct (u_place b) eqn:Ep; [rewrite !decide_False by (rewrite Hk; done)|rewrite !decide_True by (by apply Hk)|rewrite !decide_False by (rewrite Hk; done)]; rewrite ?Hz1; done.
    - (* packet *)
      destruct Hd as (p & Hi & Hp). rewrite Hi. unfold u_process. rewrite Hp. unfold is_here. cbn [fst us_socks with_tasks]. rewrite Hb. cbn [l_after].
      destruct (here b) eqn:Eh.
      + rewrite (proj1 (here_place b) Eh). unfold u_close. cbn [fst snd app]. rewrite omap_byes by apply NoDup_singleton. rewrite (z_depart _ _ k b) by done.
        rewrite !decide_True by (by left). done.
      + cbn [fst snd]. assert (u_place b ≠ Here) as Hne by (intros E%here_place; congruence). split; [|by destruct (u_place b)]. etransitivity; [exact Hz|]. by destruct (u_place b).
    - (* Disconnect(false) *)
      destruct st; [done|]. subst j. rewrite Hb. cbn [l_after]. destruct (here b) eqn:Eh.
      + rewrite (proj1 (here_place b) Eh). unfold u_disconnect, u_close. cbn [foldl].
        assert (∀ u : ustate, (u_packet DISCONNECT [] u k).1 = u.1) as H1. { intros u. unfold u_packet, u_write. destruct (us_socks u.1 !! k); [|done]. by destruct (u_open u.1 _). }
        cbn [fst snd]. rewrite H1. cbn [fst]. rewrite (z_depart _ _ k b), decide_True by (first [done|by left]). split; [done|].
        rewrite omap_app, omap_byes, decide_True by (first [apply NoDup_singleton|by left]). f_equiv; [|done]. unfold u_packet, u_write. cbn [fst]. rewrite Hb. destruct (u_open v (u_client b)); cbn; [by rewrite decide_True|done].
      + cbn [fst snd]. assert (u_place b ≠ Here) as Hne by (intros E%here_place; congruence). split; [|by destruct (u_place b)]. etransitivity; [exact Hz|]. by destruct (u_place b).
    - (* Disconnect(true) *)
      destruct st; [|done]. subst j. rewrite Hb. cbn [l_after]. destruct (here b) eqn:Eh.
      + rewrite (proj1 (here_place b) Eh). unfold u_disconnect_conns. cbv zeta. cbn [fst].
        set (K := those (λ a, here a && bool_decide (u_client a ∈ [u_client b])) v).
        assert (k ∈ K) as HK. { apply (those_of k b); [done|]. rewrite Eh, bool_decide_true by (by left). done. }
        destruct (packets_heard k b K (v, []) Hb) as [P1 P2]; [apply those_NoDup|intros j b' (b0 & Hb0 & Hp)%elem_of_those Hj Hc Hn; cbn in Hj; rewrite Hj in Hb0; injection Hb0 as <-; apply andb_prop in Hp as [Hp _]; by eapply Ha|].
        unfold u_disconnect, u_close. cbn [fst snd] in *. rewrite !P1. split.
        * unfold z_of. cbn [us_socks with_clients]. rewrite depart_lookup, Hb. cbn [fmap option_fmap option_map]. rewrite decide_True by done. cbn [be u_client u_place u_rooms].
          do 2 f_equal. assert (u_client b ∈ filter (u_open (depart clean K v)) [u_client b] ↔ u_open v (u_client b) = true) as Hf.
          { rewrite elem_of_list_filter, elem_of_list_singleton. change (u_open (depart clean K v)) with (u_open v). rewrite Is_true_true. intuition. }
          revert Hf. generalize (filter (u_open (depart clean K v)) [u_client b]). intros cs Hf. unfold u_open in Hf |- *. cbn [us_clients with_clients]. rewrite list_lookup_imap.
          assert (us_clients (depart clean K v) = us_clients v) as -> by done. destruct (us_clients v !! u_client b) as [cl|] eqn:Ecl; cbn; [|reflexivity]. destruct (decide (u_client b ∈ cs)) as [Hd|Hd]; [reflexivity|].
          destruct (uc_open cl); [|reflexivity]. by destruct Hd; apply Hf.
        * rewrite !omap_app, omap_byes, (decide_True (P := k ∈ K)) by (first [apply those_NoDup|done]).
          assert (∀ cs, omap (heard k (u_client b) (u_name v (u_nsp b))) (EHangup <$> cs) = []) as -> by (induction cs; done). rewrite app_nil_r.
          f_equiv; [|done]. rewrite P2. cbn [omap list_omap app]. destruct (u_open v (u_client b)); [by rewrite decide_True|]. by rewrite decide_False by (by intros [_ ?]).
      + cbn [fst snd]. assert (u_place b ≠ Here) as Hne by (intros E%here_place; congruence). split; [|by destruct (u_place b)]. etransitivity; [exact Hz|]. by destruct (u_place b).
    - (* Disconnect(true) of another socket *)
      destruct st; [|done]. destruct Hd as (Hp & b2 & Hb2 & Hc2 & Hp2). rewrite Hb2. rewrite (proj2 (here_place b2) Hp2), Hc2. pose proof (proj2 (here_place b) Hp) as Eh. cbn [l_after]. rewrite Hp. unfold u_disconnect_conns. cbv zeta. cbn [fst].
      set (K := those (λ a, here a && bool_decide (u_client a ∈ [u_client b])) v).
      assert (k ∈ K) as HK. { apply (those_of k b); [done|]. rewrite Eh, bool_decide_true by (by left). done. }
      destruct (packets_heard k b K (v, []) Hb) as [P1 P2]; [apply those_NoDup|intros j' b' (b0 & Hb0 & Hq)%elem_of_those Hj Hc Hn; cbn in Hj; rewrite Hj in Hb0; injection Hb0 as <-; apply andb_prop in Hq as [Hq _]; by eapply Ha|].
      unfold u_disconnect, u_close. cbn [fst snd] in *. rewrite !P1. split.
      + unfold z_of. cbn [us_socks with_clients]. rewrite depart_lookup, Hb. cbn [fmap option_fmap option_map]. rewrite decide_True by done. cbn [be u_client u_place u_rooms].
        do 2 f_equal. assert (u_client b ∈ filter (u_open (depart clean K v)) [u_client b] ↔ u_open v (u_client b) = true) as Hf.
        { rewrite elem_of_list_filter, elem_of_list_singleton. change (u_open (depart clean K v)) with (u_open v). rewrite Is_true_true. intuition. }
        revert Hf. generalize (filter (u_open (depart clean K v)) [u_client b]). intros cs Hf. unfold u_open in Hf |- *. cbn [us_clients with_clients]. rewrite list_lookup_imap.
        assert (us_clients (depart clean K v) = us_clients v) as -> by done. destruct (us_clients v !! u_client b) as [cl|] eqn:Ecl; cbn; [|reflexivity]. destruct (decide (u_client b ∈ cs)) as [Hd|Hd]; [reflexivity|].
        destruct (uc_open cl); [|reflexivity]. by destruct Hd; apply Hf.
      + rewrite !omap_app, omap_byes, (decide_True (P := k ∈ K)) by (first [apply those_NoDup|done]).
        assert (∀ cs, omap (heard k (u_client b) (u_name v (u_nsp b))) (EHangup <$> cs) = []) as -> by (induction cs; done). rewrite app_nil_r.
        f_equiv; [|done]. rewrite P2. cbn [omap list_omap app]. destruct (u_open v (u_client b)); [by rewrite decide_True|]. by rewrite decide_False by (by intros [_ ?]).
    - (* shutdown *)
      unfold u_close. cbn [fst snd app]. rewrite omap_byes by apply those_NoDup. rewrite (z_depart _ _ k b) by done. cbn [l_after].
      match goal with |- context [those ?P v] => assert (k ∈ those P v ↔ u_place b = Here) as Hk end.
      { rewrite (those_of k b) by done. rewrite bool_decide_true, andb_true_r by done. apply here_place. }
      destruct (u_place b) eqn:Ep; [rewrite !decide_False by (rewrite Hk; done)|rewrite !decide_True by (by apply Hk)|rewrite !decide_False by (rewrite Hk; done)]; rewrite ?Hz; done.
    - (* Join *)
      destruct Hd as [-> ->]. rewrite Hb. cbn [l_after]. destruct (decide (u_place b = Gone)) as [Hg|Hg].
      + rewrite Hg. cbn [fst snd]. rewrite Hz, Hg. done.
      + cbn [on_u fst snd]. split; [|by destruct (u_place b)]. unfold z_of, rooms_at. cbn [us_socks with_socks]. rewrite list_lookup_imap, Hb. cbn. rewrite decide_True by (by left). cbn.
        destruct (u_place b); [|by rewrite union_comm_L|done]. by rewrite union_comm_L.
    - (* Leave *)
      destruct Hd as [-> ->]. rewrite Hb. cbn [l_after on_u fst snd]. split; [|done]. unfold z_of, rooms_at. cbn [us_socks with_socks]. rewrite list_lookup_imap, Hb. cbn.
      rewrite decide_True; [done|]. apply (those_of k b); [done|]. by apply bool_decide_eq_true.
  Qed.
End one.

Section mono.
  Context (csr skip clean : bool).
  (** Nobody else comes. *)
  Definition later (k : nat) (v v' : userver) : Prop := ∀ j b', us_socks v' !! j = Some b' → ∃ b, us_socks v !! j = Some b ∧ u_id b' = u_id b ∧ u_nsp b' = u_nsp b ∧ u_client b' = u_client b ∧
    (u_place b' = u_place b ∨ u_place b' = Gone ∨ j = k).
  Lemma later_refl k v v' : us_socks v' = us_socks v → later k v v'.
  Proof. intros E j b'. rewrite E. intros Hj. exists b'. auto 10. Qed.
  Lemma later_depart k K v v' : us_socks v' = us_socks v → later k v (depart clean K v').
  Proof. intros E j b'. rewrite depart_lookup, E. intros (b & Hb & ->)%fmap_Some. exists b. case_decide; cbn; auto 10. Qed.
  Lemma later_to k v v1 v2 : later k v v1 → us_socks v2 = us_socks v1 → later k v v2.
  Proof. intros H E j b'. rewrite E. apply H. Qed.
  Lemma packet_socks ty d (u : ustate) k : (u_packet ty d u k).1 = u.1.
  Proof. unfold u_packet, u_write. destruct (us_socks u.1 !! k); [|done]. by destruct (u_open u.1 _). Qed.
  Lemma packets_socks ty d K (u : ustate) : (foldl (u_packet ty d) u K).1 = u.1.
  Proof. revert u. induction K as [|k K IH]; intros u; [done|]. cbn. rewrite IH. apply packet_socks. Qed.
  Lemma later_rooms k K f v : later k v (rooms_at K f v).
  Proof. intros j b'. unfold rooms_at. cbn. rewrite list_lookup_imap. intros (b & Hb & ->)%fmap_Some. exists b. cbn. case_decide; cbn; auto 10. Qed.
  Lemma u_later os o t v k : does_u v k t o → later k v (u_step csr skip clean (os, o) v).1.
  Proof.
    intros (b & Hb & Hd). unfold u_step. cbn [fst snd].
    destruct t as [own refused|r| | | | | |rs|r]; destruct o as [? ? ? ?|? ? ? ?|? ? ? ?|j err|i|?|c r'|?|j l|j r'|j st|? ? ?|? ?|? ?|? ?|? ?|? ?|? ? ? ?|? ? ?|? ? ?|? ? ?|? ? ? ?|? ? ?|]; try done.
    - destruct Hd as (-> & _). unfold u_verdict. cbn [fst]. rewrite Hb. destruct (u_open v (u_client b)); [|by apply later_depart]. destruct err as [e|].
      + rewrite packet_socks. by apply later_depart.
      + unfold u_connect. cbn [fst]. rewrite Hb. cbv zeta. intros j b'. cbn. rewrite alter_lookup. case_decide as Hj; [subst j|intros E; exists b'; auto 10].
        intros (b0 & Hb0 & ->)%fmap_Some. exists b0. cbn. auto 10.
    - unfold u_conn_closed, u_close. cbn [on_u fst]. by apply later_depart.
    - destruct (us_tasks v !! i) as [[k' p]|]; [|by apply later_refl]. unfold u_process. destruct (p_type p); cbn [fst say]; try (by apply later_refl).
      + destruct (is_here _ _); [|by apply later_refl]. unfold u_close. cbn [fst]. by apply later_depart.
      + by destruct (is_here _ _); apply later_refl.
      + by destruct (is_here _ _); apply later_refl.
    - destruct st; [done|]. destruct (us_socks v !! j) as [a|]; [|by apply later_refl]. destruct (here a); [|by apply later_refl]. unfold u_disconnect, u_close. cbn [fst]. rewrite packets_socks. by apply later_depart.
    - destruct st; [|done]. destruct (us_socks v !! j) as [a|]; [|by apply later_refl]. destruct (here a); [|by apply later_refl]. unfold u_disconnect_conns, u_disconnect, u_close. cbv zeta. cbn [fst].
      rewrite packets_socks. by eapply later_to; [eapply (later_depart k _ v v); reflexivity|].
    - destruct st; [|done]. destruct (us_socks v !! j) as [a|]; [|by apply later_refl]. destruct (here a); [|by apply later_refl]. unfold u_disconnect_conns, u_disconnect, u_close. cbv zeta. cbn [fst].
      rewrite packets_socks. by eapply later_to; [eapply (later_depart k _ v v); reflexivity|].
    - unfold u_close. cbn [fst]. by apply later_depart.
    - destruct Hd as [-> ->]. rewrite Hb. case_decide; [by apply later_refl|]. apply later_rooms.
    - destruct Hd as [-> ->]. rewrite Hb. apply later_rooms.
  Qed.
End mono.

(** ** The server *)
Section server.
  Context (csr skip clean : bool).
  Notation srun := (run csr skip clean).
  Lemma life_quiet x k : invPC x → invN x → sole x k → life_of x k = quiet (z_of (seen x) k).
  Proof.
    intros PC N S. pose proof (pc_a _ PC) as A. unfold life_of, z_of. rewrite seen_lookup. destruct (c_socks x !! k) as [a|] eqn:Ek; [|done]. cbn [fmap option_fmap option_map].
    rewrite open_seen. unfold quiet. cbn [fst snd u_client seen_sock u_place u_rooms].
    assert (sk_connected a = true ↔ socks_of x (sk_nsp a) !! sk_id a = Some k) as H1.
    { split; [intros H; apply (pc_c _ PC k a Ek H)|]. intros (a' & Ea & _ & _ & ?)%(ia_nsock _ A). congruence. }
    assert (sk_connected a = true ↔ csocks_of x (sk_client a) !! sk_id a = Some k) as H2.
    { split; [intros H; apply (pc_c _ PC k a Ek H)|]. intros (a' & Ea & _ & _ & ?)%(ia_csock _ A). congruence. }
    assert (sk_connected a = true ↔ cnsps_of x (sk_client a) !! name_of x (sk_nsp a) = Some k) as H3.
    { split; [intros H; apply (pc_c _ PC k a Ek H)|]. intros [(a' & Ea & ? & _) _]%N. congruence. }
    rewrite <- (bool_decide_ext _ _ H1), <- (bool_decide_ext _ _ H2), <- (bool_decide_ext _ _ H3).
    assert (rooms_sock x k = if sk_can_join a then rooms_of (reg_of x (sk_nsp a)) (sk_id a) else ∅) as ->.
    { unfold rooms_sock. rewrite Ek. destruct (sk_can_join a) eqn:Ej; [done|]. unfold rooms_of. destruct (rg_sids (reg_of x (sk_nsp a)) !! sk_id a) as [X|] eqn:Ex; [|done].
      destruct (ia_room _ A (sk_nsp a) (sk_id a)) as (j & b & Eb & Hi & Hn & Hj); [by eexists|]. assert (j = k) as -> by (by eapply S). congruence. }
    destruct (sk_connected a) eqn:Ec; [by rewrite (ia_live _ A k a Ek Ec)|]. by destruct (sk_can_join a).
  Qed.
  Lemma does_seen x k t o : does x k t o → does_u (seen x) k t o.
  Proof.
    intros (a & Ek & H). exists (seen_sock x a). rewrite seen_lookup, Ek. split; [done|]. destruct t, o; try done.
    - match goal with b : bool |- _ => destruct b; [|done] end. destruct H as (Hc & b & Hb & Hcl & Hcb). split; [cbn; by rewrite Hc|]. exists (seen_sock x b). rewrite seen_lookup, Hb. split; [done|]. split; [done|]. cbn. by rewrite Hcb.
    - rewrite name_seen. exact H.
  Qed.
  Lemma heard_seen x k l : heard_by x k l = heard_u (seen x) k l.*2.
  Proof.
    unfold heard_by, heard_u. rewrite seen_lookup. destruct (c_socks x !! k) as [a|]; [|done]. cbn [fmap option_fmap option_map u_client u_nsp seen_sock]. rewrite name_seen.
    induction l as [|e l IH]; [done|]. cbn. by rewrite IH.
  Qed.
  Lemma alone_seen x k a : invPC x → c_socks x !! k = Some a →
    ∀ j b', us_socks (seen x) !! j = Some b' → u_client b' = u_client (seen_sock x a) → u_name (seen x) (u_nsp b') = u_name (seen x) (u_nsp (seen_sock x a)) →
      here (seen_sock x a) = true → here b' = true → j = k.
  Proof.
    intros PC Ek j b' (b & Eb & ->)%seen_lookup_Some. rewrite !name_seen, !here_seen. cbn. intros Hc Hn H1 H2.
    destruct (pc_c _ PC k a Ek H1) as (_ & _ & Hk). destruct (pc_c _ PC j b Eb H2) as (_ & _ & Hj). congruence.
  Qed.

  (** One call. *)
  Lemma life_step h e k t : env_ok csr skip clean (h ++ [e]) → polite csr skip clean (h ++ [e]) → sole (srun h).1 k → does (srun h).1 k t e.2 →
    let z := z_of (seen (srun h).1) k in
    (match t with LcConnect _ _ => z.1.2 = Waiting | _ => True end) ∧ life_of (srun h).1 k = quiet z ∧
    sole (srun (h ++ [e])).1 k ∧ life_of (srun (h ++ [e])).1 k = quiet (l_after t z).1 ∧
    ∃ l, (srun (h ++ [e])).2 = (srun h).2 ++ l ∧ (l_after t z).2 ≡ₚ heard_by (srun h).1 k l.
  Proof.
    intros He Hp S Hd. cbv zeta. pose proof (run_PC csr skip clean _ He Hp) as PC'. assert (invN (srun (h ++ [e])).1) as N' by (by apply run_N; [done|apply PC']).
    destruct (run_sim csr skip clean h e He Hp) as [Es (l & El & Hl)]. apply env_snoc in He as [He Ho]. apply nice_snoc in Hp as [Hp Hpo].
    pose proof (run_PC csr skip clean _ He Hp) as PC. assert (invN (srun h).1) as N by (by apply run_N; [done|apply PC]).
    destruct Hd as (a & Ek & Hd0). assert (does (srun h).1 k t e.2) as Hd by (by exists a). clear Hd0.
    assert (match t with LcConnect _ _ => (z_of (seen (srun h).1) k).1.2 = Waiting | _ => True end) as Hw.
    { destruct t; try done. destruct Hd as (a' & Ek' & Hd). destruct e as [os o]. cbn in Hd. destruct o; try done. destruct Hd as (-> & _). destruct Ho as [_ (a'' & Ek'' & Hc & Hj)].
      unfold z_of. rewrite seen_lookup, Ek''. cbn. by rewrite Hc, Hj. }
    pose proof (u_later csr skip clean e.1 e.2 t _ k (does_seen _ _ _ _ Hd)) as Hlat. pose proof (u_one csr skip clean e.1 e.2 t (seen (srun h).1) k (seen_sock (srun h).1 a)) as Hone.
    rewrite seen_lookup, Ek in Hone. specialize (Hone eq_refl (alone_seen _ _ _ PC Ek)).
    assert (match t with LcConnect _ _ => u_place (seen_sock (srun h).1 a) = Waiting | _ => True end) as Hw'. { unfold z_of in Hw. rewrite seen_lookup, Ek in Hw. exact Hw. }
    specialize (Hone Hw' (does_seen _ _ _ _ Hd)). rewrite <- surjective_pairing in Hone, Hlat. rewrite <- Es in Hlat.
    assert (∀ j b, c_socks (srun (h ++ [e])).1 !! j = Some b → ∃ b0, c_socks (srun h).1 !! j = Some b0 ∧ sk_id b = sk_id b0 ∧ sk_nsp b = sk_nsp b0 ∧ sk_client b = sk_client b0 ∧
      (j ≠ k → (sk_connected b = true → sk_connected b0 = true) ∧ (sk_can_join b = true → sk_can_join b0 = true))) as Hold.
    { intros j b Hj. destruct (Hlat j (seen_sock (srun (h ++ [e])).1 b)) as (u & (b0 & Hb0 & ->)%seen_lookup_Some & E1 & E2 & E3 & E4); [by rewrite seen_lookup, Hj|].
      exists b0. do 4 (split; [done|]). intros Hne. cbn in E4. pose proof (ia_live _ (pc_a _ PC) j b0 Hb0) as Hlive.
      destruct E4 as [E4|[E4|E4]]; [| |done]; destruct (sk_connected b), (sk_can_join b), (sk_connected b0), (sk_can_join b0); try done; try (specialize (Hlive eq_refl)); done. }
    assert (sole (srun (h ++ [e])).1 k) as S'.
    { intros j a1 b1 H1 H2 Hj Hi Hn. destruct (decide (j = k)) as [|Hne]; [done|]. destruct (Hold _ _ H1) as (a0 & Ea & E1 & E2 & E3 & _). destruct (Hold _ _ H2) as (b0 & Eb & F1 & F2 & F3 & F4).
      apply (S j a0 b0); try done; [by apply F4|congruence..]. }
    split; [done|]. split; [by apply life_quiet|]. split; [done|]. split.
    - rewrite (life_quiet _ _ PC' N' S'), Es. f_equal. apply Hone.
    - exists l. split; [done|]. rewrite heard_seen. rewrite <- (proj2 Hone). unfold heard_u. destruct (us_socks _ !! k); [|done]. by rewrite Hl.
  Qed.
End server.

(** ** Calls in turn *)
Lemma turn_In i j ns : j ∈ turn_by_turn i ns → i ≤ j < i + length ns.
Proof. revert i. induction ns as [|n ns IH]; intros i; [by rewrite elem_of_nil|]. cbn. rewrite elem_of_app, elem_of_replicate. intros [[-> _]|H%IH]; lia. Qed.
Lemma lc_frame is j c : j ∉ is → lf_calls (foldl lc_step c is) !! j = lf_calls c !! j.
Proof.
  revert c. induction is as [|i is IH]; intros c; [done|]. rewrite not_elem_of_cons. intros [Hj H]. cbn [foldl]. rewrite IH by done. unfold lc_step.
  destruct (lf_calls c !! i) as [[t p]|]; [|done]. cbn. by rewrite list_lookup_insert_ne by done.
Qed.
Lemma said_app i l1 l2 : said i (l1 ++ l2) = said i l1 ++ said i l2.
Proof. apply omap_app. Qed.
Lemma said_same i (l : list lev) : said i ((λ e, (i, e)) <$> l) = l.
Proof. unfold said. induction l as [|e l IH]; [done|]. cbn. rewrite decide_True by done. by rewrite IH. Qed.
Lemma said_other i j (l : list lev) : i ≠ j → said i ((λ e, (j, e)) <$> l) = [].
Proof. intros Hne. unfold said. induction l as [|e l IH]; [done|]. cbn. by rewrite decide_False by done. Qed.

Section turns.
  Context (csr skip clean : bool).
  Notation srun := (run csr skip clean).
  Lemma turns_gen k es : ∀ h ts ns c i0, length ns = length es → length ts = length es → env_ok csr skip clean (h ++ es) → polite csr skip clean (h ++ es) →
    sole (srun h).1 k → (∀ i t e, ts !! i = Some t → es !! i = Some e → does (srun (h ++ take i es)).1 k t e.2) →
    (∀ i t, ts !! i = Some t → lf_calls c !! (i0 + i) = Some (t, QStart)) → (es ≠ [] → lf_state c = life_of (srun h).1 k) → (∀ i, i0 ≤ i → said i (lf_log c) = []) →
    let c' := foldl lc_step c (turn_by_turn i0 ns) in ended c' (seq i0 (length ts)) →
    (es ≠ [] → lf_state c' = life_of (srun (h ++ es)).1 k) ∧ (∀ i, i < i0 → said i (lf_log c') = said i (lf_log c)) ∧
    ∀ i e, es !! i = Some e → ∃ l, (srun (h ++ take (S i) es)).2 = (srun (h ++ take i es)).2 ++ l ∧ said (i0 + i) (lf_log c') ≡ₚ heard_by (srun (h ++ take i es)).1 k l.
  Proof.
    induction es as [|e es IH]; intros h ts ns c i0 Hn Ht He Hp S Hd Hc Hs Hlog c' Hend.
    - destruct ns; [|done]. done.
    - destruct ns as [|n ns]; [done|]. destruct ts as [|t ts]; [done|]. cbn [length] in *. injection Hn as Hn. injection Ht as Ht.
      assert (h ++ e :: es = (h ++ [e]) ++ es) as Eh by by rewrite <- app_assoc. rewrite Eh in He, Hp.
      assert (env_ok csr skip clean (h ++ [e])) as He1 by (by apply env_app in He). assert (polite csr skip clean (h ++ [e])) as Hp1 by (by apply nice_app in Hp).
      pose proof (Hd 0 t e eq_refl eq_refl) as Hd0. cbn [take] in Hd0. rewrite app_nil_r in Hd0.
      destruct (life_step csr skip clean h e k t He1 Hp1 S Hd0) as (Hw & Hz & S' & Hz' & l & El & Hl).
      pose proof (Hc 0 t eq_refl) as Hc0. rewrite Nat.add_0_r in Hc0. specialize (Hs ltac:(done)).
      set (c1 := foldl lc_step c (replicate n i0)).
      assert (c' = foldl lc_step c1 (turn_by_turn (Datatypes.S i0) ns)) as Ec by (unfold c', c1; cbn [turn_by_turn]; by rewrite foldl_app).
      cbn [seq] in Hend. inversion Hend as [|? ? Hend0 Hend']; subst. 
      assert (lf_calls c1 !! i0 = lf_calls c' !! i0) as E0 by (rewrite Ec, lc_frame; [done|intros H%turn_In; lia]).
      rewrite <- E0 in Hend0.
      pose proof (lc_block_end n i0 c t _ Hc0 (eq_trans Hs Hz) Hw Hend0) as Ec1. fold c1 in Ec1.
      rewrite Ec in Hend' |- *. cbv zeta in IH. specialize (IH (h ++ [e]) ts ns c1 (Datatypes.S i0) Hn Ht He Hp S').
      destruct IH as (I1 & I2 & I3); [..|exact Hend'|].
      + intros i t' e' H1 H2. specialize (Hd (Datatypes.S i) t' e' H1 H2). cbn [take] in Hd. by rewrite <- app_assoc.
      + intros i t' H1. rewrite Ec1. cbn [lf_log lf_calls lf_state]. rewrite list_lookup_insert_ne by lia. specialize (Hc (Datatypes.S i) t' H1). by rewrite <- Nat.add_succ_comm in Hc.
      + intros _. rewrite Ec1. cbn [lf_log lf_calls lf_state]. by rewrite Hz'.
      + intros i Hi. rewrite Ec1. cbn [lf_log lf_calls lf_state]. rewrite said_app, said_other by lia. rewrite app_nil_r. apply Hlog. lia.
      + split; [|split].
        * intros _. destruct es as [|e1 es]; [|rewrite Eh; by apply I1]. destruct ns; [|done]. cbn. rewrite Ec1. by rewrite Hz'.
        * intros i Hi. rewrite I2 by lia. rewrite Ec1. cbn [lf_log lf_calls lf_state]. by rewrite said_app, said_other, app_nil_r by lia.
        * intros [|i] e' Hi.
          -- exists l. cbn [take]. rewrite take_0, !app_nil_r. split; [done|]. rewrite Nat.add_0_r, I2 by lia. rewrite Ec1. cbn [lf_log lf_calls lf_state]. rewrite said_app, said_same, Hlog by lia. exact Hl.
          -- destruct (I3 i e' Hi) as (l' & E' & P'). exists l'. cbn [take]. rewrite <- !app_assoc in *. cbn [app] in *. split; [exact E'|]. rewrite Nat.add_succ_r. exact P'.
  Qed.
  Lemma ends_gen k es : ∀ h ts c i0, length ts = length es → env_ok csr skip clean (h ++ es) → polite csr skip clean (h ++ es) →
    sole (srun h).1 k → (∀ i t e, ts !! i = Some t → es !! i = Some e → does (srun (h ++ take i es)).1 k t e.2) →
    (∀ i t, ts !! i = Some t → lf_calls c !! (i0 + i) = Some (t, QStart)) → (es ≠ [] → lf_state c = life_of (srun h).1 k) →
    ended (foldl lc_step c (turn_by_turn i0 (replicate (length es) 40))) (seq i0 (length ts)).
  Proof.
    induction es as [|e es IH]; intros h ts c i0 Ht He Hp S Hd Hc Hs.
    - destruct ts; [|done]. constructor.
    - destruct ts as [|t ts]; [done|]. cbn [length] in *. injection Ht as Ht.
      assert (h ++ e :: es = (h ++ [e]) ++ es) as Eh by by rewrite <- app_assoc. rewrite Eh in He, Hp.
      assert (env_ok csr skip clean (h ++ [e])) as He1 by (by apply env_app in He). assert (polite csr skip clean (h ++ [e])) as Hp1 by (by apply nice_app in Hp).
      pose proof (Hd 0 t e eq_refl eq_refl) as Hd0. cbn [take] in Hd0. rewrite app_nil_r in Hd0.
      destruct (life_step csr skip clean h e k t He1 Hp1 S Hd0) as (Hw & Hz & S' & Hz' & l & El & Hl).
      pose proof (Hc 0 t eq_refl) as Hc0. rewrite Nat.add_0_r in Hc0. specialize (Hs ltac:(done)).
      change (turn_by_turn i0 (replicate (Datatypes.S (length es)) 40)) with (replicate 40 i0 ++ turn_by_turn (Datatypes.S i0) (replicate (length es) 40)). rewrite foldl_app. pose proof (lc_block 40 i0 c t QStart Hc0) as Eb. cbv zeta in Eb. rewrite Hs, Hz, l_iter_end in Eb by done. cbn [fst snd] in Eb.
      rewrite Eb. cbn [seq]. constructor.
      + exists t. rewrite lc_frame; [|intros H%turn_In; lia]. cbn [lf_calls]. apply list_lookup_insert. by eapply lookup_lt_Some.
      + apply (IH (h ++ [e])); try done.
        * intros i t' e' H1 H2. specialize (Hd (Datatypes.S i) t' e' H1 H2). cbn [take] in Hd. by rewrite <- app_assoc.
        * intros i t' H1. cbn [lf_calls]. rewrite list_lookup_insert_ne by lia. specialize (Hc (Datatypes.S i) t' H1). by rewrite <- Nat.add_succ_comm in Hc.
  Qed.
  Lemma c67_turns_l h k ts es ns : env_ok csr skip clean (h ++ es) → polite csr skip clean (h ++ es) → sole (srun h).1 k → done_by csr skip clean h k ts es → length ns = length ts →
    let c := lc_run (life_of (srun h).1 k) ts (turn_by_turn 0 ns) in ended c (seq 0 (length ts)) →
    lf_state c = life_of (srun (h ++ es)).1 k ∧
    ∀ i, i < length ts → ∃ l, (srun (h ++ take (S i) es)).2 = (srun (h ++ take i es)).2 ++ l ∧ said i (lf_log c) ≡ₚ heard_by (srun (h ++ take i es)).1 k l.
  Proof.
    intros He Hp S [Hl Hd] Hn c Hend.
    destruct (turns_gen k es h ts ns (LConf (life_of (srun h).1 k) ((λ t, (t, QStart)) <$> ts) []) 0) as (T1 & T2 & T3); try done; [congruence| |].
    { intros i t Hi. cbn. by rewrite list_lookup_fmap, Hi. }
    split.
    - destruct es as [|e es]; [|by apply T1]. destruct ts; [|done]. destruct ns; [|done]. cbn. by rewrite app_nil_r.
    - intros i Hi. rewrite Hl in Hi. apply lookup_lt_is_Some in Hi as [e Hi]. exact (T3 i e Hi).
  Qed.
  Lemma c67_end_l h k ts es : env_ok csr skip clean (h ++ es) → polite csr skip clean (h ++ es) → sole (srun h).1 k → done_by csr skip clean h k ts es →
    ∃ ns, length ns = length ts ∧ ended (lc_run (life_of (srun h).1 k) ts (turn_by_turn 0 ns)) (seq 0 (length ts)).
  Proof.
    intros He Hp S [Hl Hd]. exists (replicate (length es) 40). split; [by rewrite replicate_length|]. eapply ends_gen; try done.
    intros i t Hi. cbn. by rewrite list_lookup_fmap, Hi.
  Qed.
End turns.
