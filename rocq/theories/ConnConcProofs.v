(** Proofs for C74: a connection with several sockets is, for each of them, an execution of LifeConc. *)
From Verif Require Import Base LifeConc LifeConcSpec LifeConcProofs ConnConc ConnConcSpec.

(** ** Executions of LifeConc *)
Fixpoint iter (n : nat) (t : lcall) (p : lpc) (s : lstate) : lpc * lstate * list lev :=
  match n with
  | 0 => (p, s, [])
  | S n => let x := lc_step1 t p s in let y := iter n t x.1.1 x.1.2 in (y.1, option_list x.2 ++ y.2)
  end.
Lemma block n i c t p : lf_calls c !! i = Some (t, p) → let y := iter n t p (lf_state c) in
  foldl lc_step c (replicate n i) = LConf y.1.2 (<[i := (t, y.1.1)]> (lf_calls c)) (lf_log c ++ ((λ e, (i, e)) <$> y.2)).
Proof.
  cbv zeta. revert c p. induction n as [|n IH]; intros c p Hi; cbn [replicate foldl iter].
  - cbn. rewrite app_nil_r, list_insert_id by done. by destruct c.
  - unfold lc_step at 2. rewrite Hi. rewrite (IH _ (lc_step1 t p (lf_state c)).1.1) by (cbn; apply list_lookup_insert; by eapply lookup_lt_Some).
    cbn. rewrite list_insert_insert, <- app_assoc. f_equal. f_equal. rewrite fmap_app. f_equal. by destruct (lc_step1 t p (lf_state c)).2.
Qed.
Definition reached (s0 : lstate) (c : lconf) : Prop := ∃ sched, c = foldl lc_step (LConf s0 ((λ u, (u, QStart)) <$> (lf_calls c).*1) []) sched.
Lemma calls_step c i : (lf_calls (lc_step c i)).*1 = (lf_calls c).*1.
Proof.
  unfold lc_step. destruct (lf_calls c !! i) as [[t p]|] eqn:Hi; [|done]. cbn. rewrite list_fmap_insert. cbn. apply list_insert_id. by rewrite list_lookup_fmap, Hi.
Qed.
Lemma calls_steps c l : (lf_calls (foldl lc_step c l)).*1 = (lf_calls c).*1.
Proof. revert c. induction l as [|i l IH]; intros c; [done|]. cbn. by rewrite IH, calls_step. Qed.
Lemma reached_steps s0 c l : reached s0 c → reached s0 (foldl lc_step c l).
Proof. intros [sched H]. exists (sched ++ l). rewrite foldl_app, calls_steps. by rewrite <- H. Qed.
(** Steps that change nothing but where their call stands. *)
Lemma silent s L pre l l' : Forall2 (λ a b : lcall * lpc, a = b ∨ a.1 = b.1 ∧ lc_step1 a.1 a.2 s = (b.2, s, None)) l l' →
  ∃ sched, foldl lc_step (LConf s (pre ++ l) L) sched = LConf s (pre ++ l') L.
Proof.
  intros H. revert pre. induction H as [|[u q] [u' q'] l l' Hab _ IH]; intros pre; [by exists []|].
  destruct (IH (pre ++ [(u', q')])) as [sched Hs]. rewrite <- !app_assoc in Hs. cbn in Hs.
  destruct Hab as [[= -> ->]|[Hu Hst]]; [by exists sched|]. cbn in Hu, Hst. subst u'. exists (length pre :: sched). cbn [foldl]. rewrite <- Hs. f_equal.
  unfold lc_step. cbn [lf_calls]. rewrite (list_lookup_middle pre l (u, q) (length pre) eq_refl). cbn [lf_state lf_log]. rewrite Hst. cbn. rewrite app_nil_r.
  f_equal. rewrite (insert_app_r_alt pre) by done. by rewrite Nat.sub_diag.
Qed.

(** ** One call *)
Definition stay (k : lcont) : lpc := match k with KAll => QRange1 | KClear => QRange | KEnd => QStart end.
Definition loopy (x : sid) (k : lcont) (g : crange) (u : lcall) (q : lpc) : Prop :=
  q = stay k ∧ x ∉ cg_visited g ∨ q = first k u ∧ x ∈ cg_seen g ∧ x ∉ cg_visited g ∨ q = after k ∧ (x ∉ cg_stable g ∨ x ∈ cg_visited g).
Definition idle : lcall := LcJoin ∅.
Definition pm (x : sid) (tp : ccall * cpc) (uq : lcall * lpc) : Prop :=
  seen_as x tp.1 uq.1 ∧
  match own_call tp.1 with
  | Some (y, _) => if decide (y = x) then tp.2 = MIn uq.2 else uq.2 = (if cover tp.2 then QDone else QStart)
  | None =>
      match tp.2 with
      | MStart => uq.2 = QStart
      | MNone => uq.2 = QDone ∧ (uq.1 = LcDisconnectAll ∨ uq.1 = idle)
      | MDone => uq.2 = QDone ∧ uq.1 ≠ idle
      | MRange k g => loopy x k g uq.1 uq.2 ∧ uq.1 ≠ idle
      | MAt k g y q => (if decide (y = x) then uq.2 = q else loopy x k g uq.1 uq.2) ∧ uq.1 ≠ idle
      | MAfter q => uq.2 = q ∧ uq.1 ≠ idle
      | MIn _ => False
      end
  end.
(** Where a call can stand. *)
Definition inner (k : lcont) (q : lpc) : bool :=
  match q, k with
  | QCheck1, KAll | QWrite KAll, KAll => true
  | (QOpen _ k' | QSay _ k' | QLeave _ k' | QUnlist _ k' | QNoJoin _ k' | QHas _ k' | QDrop _ k' | QDropNsp _ k' | QOff _ k' | QBye _ k'), _ =>
      match k, k' with KAll, KAll | KClear, KClear | KEnd, KEnd => true | _, _ => false end
  | _, _ => false
  end.
Definition alone (q : lpc) : bool :=
  match q with QRange1 | QCheck1 | QClear1 | QReady | QHang | QRange | QClear => false | QWrite KEnd => true | QWrite _ => false
  | QOpen _ _ | QSay _ _ | QLeave _ _ | QUnlist _ _ | QNoJoin _ _ | QHas _ _ | QDrop _ _ | QDropNsp _ _ | QOff _ _ | QBye _ _ => inner KEnd q | _ => true end.
Definition fits (t : ccall) (k : lcont) : bool :=
  match t, k with CTransport _, KClear | CDisconnectAll _, (KAll | KClear) | CShutdown, KEnd => true | _, _ => false end.
Definition cvalid (t : ccall) (p : cpc) : Prop :=
  match own_call t with
  | Some _ => ∃ q, p = MIn q ∧ alone q = true
  | None =>
      match p with
      | MStart | MDone => True
      | MNone => ∃ x, t = CDisconnectAll x
      | MIn _ => False
      | MRange k g => fits t k = true
      | MAt k g x q => fits t k = true ∧ inner k q = true ∧ x ∈ cg_visited g
      | MAfter q => match q with QClear => ∃ u, fits t KClear = true ∧ u = t | QClear1 | QReady | QHang => ∃ x, t = CDisconnectAll x | _ => False end
      end
  end.
Lemma inner_step u k q s : inner k q = true → (over k (lc_step1 u q s).1.1 = true ∧ (lc_step1 u q s).1.1 = after k) ∨ over k (lc_step1 u q s).1.1 = false ∧ inner k (lc_step1 u q s).1.1 = true.
Proof. destruct k, q as [ | | | | | | | | | | | | | |[]| | | | | | | |? []|? []|? []|? []|? []|? []|? []|? []|? []|? []| | ]; try done; cbn; repeat case_match; simplify_eq; auto. Qed.
Lemma inner_open u k q s : inner k q = true → ls_open (lc_step1 u q s).1.2 = ls_open s.
Proof. destruct k, q; try done; cbn; repeat case_match; done. Qed.
Lemma alone_step t x u q s : own_call t = Some (x, u) → alone q = true → alone (lc_step1 u q s).1.1 = true ∧ ls_open (lc_step1 u q s).1.2 = ls_open s.
Proof.
  intros Hu Hq. destruct q as [ | | | | | | | | | | | | | |[]| | | | | | | |? []|? []|? []|? []|? []|? []|? []|? []|? []|? []| | ]; try done; cbn.
  all: try (destruct t; try done; injection Hu as <- <-; cbn; repeat case_match; by split).
  all: repeat case_match; simplify_eq; try done; try (by split).
Qed.
Lemma cvalid_step t l p s : cvalid t p → cvalid t (cstep1 t l p s).1.1.
Proof.
  unfold cvalid. destruct (own_call t) as [[x u]|] eqn:Eo.
  - intros (q & -> & Hq). cbn. rewrite Eo. cbn. eexists. split; [done|]. by eapply alone_step.
  - destruct p as [ |q|k g|k g x q|q| | ]; cbn [cstep1 fst].
    + intros _. destruct t; try done; cbn. destruct (ls_connected _); cbn; [done|eauto].
    + done.
    + intros Hf. destruct l as [x|]; cbn; case_decide; try done; cbn.
      * split_and!; [done|by destruct k|set_solver].
      * destruct k; destruct t; try done; cbn; eauto.
    + intros (Hf & Hi & Hv). destruct (inner_step (loop_call t) k q (sock s x) Hi) as [[-> _]|[-> ?]]; done.
    + destruct q; try done; intros H; cbn.
      all: try (destruct (cs_open s); cbn); try done; destruct H as [y ->]; done.
    + done.
    + done.
Qed.
Lemma sees_valid s t p : cvalid t p → cvalid t (sees s p).
Proof. unfold cvalid. destruct (own_call t); [intros (q & -> & ?); cbn; eauto|]. by destruct p. Qed.

Lemma sock_open s x : ls_open (sock s x) = cs_open s.
Proof. done. Qed.
Lemma sock_put s x v : ls_open v = cs_open s → sock (put x v s) x = v.
Proof. intros H. unfold sock, put. cbn. rewrite lookup_insert. cbn. rewrite <- H. by destruct v. Qed.
Lemma sock_put_ne s x y v : y ≠ x → sock (put y v s) x = sock s x.
Proof. intros H. unfold sock, put. cbn. by rewrite lookup_insert_ne. Qed.
Lemma sock_clear s x : sock (cclear s) x = set_csock false (sock s x).
Proof. unfold sock, cclear. cbn. rewrite lookup_fmap. by destruct (cs_socks s !! x). Qed.
Lemma sock_hang s x : sock (chang s) x = set_open false (sock s x).
Proof. done. Qed.
Definition flag (k : lcont) (v : lstate) : bool := match k with KEnd => ls_listed v | _ => ls_csock v end.
Lemma in_table k s x : x ∈ table k s ↔ flag k (sock s x) = true.
Proof.
  unfold table. rewrite elem_of_filter, elem_of_dom. split; [intros [H _]; by destruct k|]. intros H. split; [by destruct k|].
  unfold sock in H. destruct (cs_socks s !! x); [done|]. by destruct k.
Qed.
(** The look of a loop at [x]. *)
Definition loops (u : lcall) (k : lcont) : Prop := k = KEnd → u = LcShutdown.
Lemma look u k v : loops u k → lc_step1 u (stay k) v = (if flag k v then first k u else after k, v, None).
Proof. intros H. destruct k; cbn; [|by destruct (ls_csock v)|by destruct (ls_csock v)]. rewrite H by done. by destruct (ls_listed v). Qed.
Lemma loops_fits x t u k : seen_as x t u → fits t k = true → loops u k.
Proof. intros Hu Hf ->. destruct t; try done. Qed.
Lemma begins x k s u q v : loops u k → flag k v = flag k (sock s x) → loopy x k (CRange (table k s) (table k s) ∅) u q → ∃ n, iter n u (stay k) v = (q, v, []).
Proof.
  intros Hl Hf [[-> _]|[(-> & Hs & _)|(-> & Hs)]]; cbn [cg_seen cg_stable cg_visited] in *.
  - by exists 0.
  - exists 1. cbn. rewrite look by done. rewrite Hf. apply in_table in Hs. by rewrite Hs.
  - exists 1. cbn. rewrite look by done. rewrite Hf. destruct Hs as [Hs|Hs]; [|set_solver]. rewrite in_table in Hs. by destruct (flag k (sock s x)).
Qed.
Lemma forced_same x t u k : seen_as x t u → fits t k = true → u ≠ idle → first k u = first k (loop_call t).
Proof. intros Hu Hf Hi. destruct t; try done; cbn in Hu; [|by subst..]. destruct (decide _); [by subst|]. destruct Hu as [-> | ->]; [by destruct k|done]. Qed.
Lemma step_same x t u k q v : seen_as x t u → fits t k = true → u ≠ idle → inner k q = true → lc_step1 (loop_call t) q v = lc_step1 u q v.
Proof.
  intros Hu Hf Hi Hq. destruct t; try done; cbn in Hu; [|by subst..]. destruct (decide _); [by subst|]. destruct Hu as [-> | ->]; [|done].
  destruct k, q; try done.
Qed.
Definition evs (x : sid) (l : list (sid * lev)) : list lev := omap (λ e : sid * lev, if decide (e.1 = x) then Some e.2 else None) l.
Lemma evs_tell x e : evs x (tell x e) = option_list e.
Proof. destruct e; cbn; [|done]. by rewrite decide_True. Qed.
Lemma evs_other x y e : y ≠ x → evs x (tell y e) = [].
Proof. intros H. destruct e; cbn; [|done]. by rewrite decide_False. Qed.
Lemma triple {A B C} (r : A * B * option C) : (r.1.1, r.1.2, option_list r.2 ++ []) = (r.1, option_list r.2).
Proof. rewrite app_nil_r. by destruct r as [[??]?]. Qed.
Lemma one_step u q v : iter 1 u q v = ((lc_step1 u q v).1, option_list (lc_step1 u q v).2).
Proof. cbn. rewrite app_nil_r. by destruct (lc_step1 u q v) as [[??]?]. Qed.
Lemma iter_S n u q v q' v' : lc_step1 u q v = (q', v', None) → iter (S n) u q v = iter n u q' v'.
Proof. intros H. cbn. rewrite H. cbn. by destruct (iter n u q' v') as [[??]?]. Qed.

Lemma idle_ends v : ∃ n, iter n idle QStart v = (QDone, v, []).
Proof.
  destruct v as [o c [] R l cs cn]; [exists 2; cbn; f_equal; f_equal; unfold set_rooms; cbn; f_equal; set_solver|by exists 1].
Qed.
Local Arguments sock : simpl never.

Lemma one x t l p s u q1 : cvalid t p → pm x (t, (cstep1 t l p s).1.1) (u, q1) →
  ∃ q0 n, pm x (t, p) (u, q0) ∧ iter n u q0 (sock s x) = (q1, sock (cstep1 t l p s).1.2 x, evs x (cstep1 t l p s).2).
Proof.
  intros Hv [Hu Hp]. cbn [fst snd] in Hu, Hp. unfold cvalid in Hv. unfold pm. cbn [fst snd].
  destruct (own_call t) as [[y w]|] eqn:Eo.
  - destruct Hv as (q & -> & Hq). cbn [cstep1] in Hp |- *. rewrite Eo in Hp |- *. cbn [fst snd] in Hp |- *.
    destruct (alone_step t y w q (sock s y) Eo Hq) as [_ Hop]. destruct (decide (y = x)) as [->|Hne].
    + injection Hp as <-. exists q, 1. split; [done|]. rewrite sock_put by done. rewrite evs_tell.
      assert (u = w) as ->. { destruct t; try done; cbn in Hu, Eo; injection Eo as -> <-; by rewrite decide_True in Hu. }
      rewrite one_step. by destruct (lc_step1 w q (sock s x)) as [[??]?].
    + rewrite sock_put_ne, evs_other by done.
      assert (u = idle) as ->. { destruct t; try done; cbn in Hu, Eo; injection Eo as -> <-; by rewrite decide_False in Hu. }
      exists (if cover (MIn q) then QDone else QStart).
      assert (∃ n, iter n idle (if cover (MIn q) then QDone else QStart) (sock s x) = (q1, sock s x, [])) as [n Hn]; [|by exists n].
      destruct (cover (MIn q)) eqn:Ec.
      * destruct q; try done. cbn in Hp. subst q1. by exists 0.
      * destruct (cover (MIn (lc_step1 w q (sock s y)).1.1)); subst q1; [|by exists 0].
        apply idle_ends.
  - destruct p as [ |q|k g|k g y q|q| | ].
    + cbn [cstep1] in Hp |- *. destruct t as [| | | | |y|r|]; try done; cbn [fst snd] in Hp |- *.
      * destruct (ls_connected (sock s y)) eqn:Ec.
        -- destruct Hp as [Hl Hi]. exists QStart.
           destruct (begins x KAll s u q1 (sock s x) ltac:(done) eq_refl Hl) as [n Hn]. exists (S n). split; [done|].
           etransitivity; [|exact Hn]. apply iter_S. cbn in Hu |- *. destruct (decide (y = x)) as [->|]; [subst u; cbn; by rewrite Ec|]. destruct Hu as [-> | ->]; done.
        -- destruct Hp as [-> Hi]. exists QStart. pose proof Hu as Hu'. cbn in Hu. destruct (decide (y = x)) as [->|].
           ++ subst u. exists 1. split; [by split|]. cbn. by rewrite Ec.
           ++ destruct Hi as [->|Hi]; [by destruct Hu|]. subst u. destruct (idle_ends (sock s x)) as [m Hm]. exists m. split; [done|]. exact Hm.
      * destruct Hp as [Hl Hi]. exists QStart.
        destruct (begins x KClear s u q1 (sock (chang s) x) ltac:(done) eq_refl Hl) as [n Hn]. exists (S n). split; [done|].
        etransitivity; [|exact Hn]. apply iter_S. cbn in Hu. by subst u.
      * destruct Hp as [Hl Hi]. exists QStart. cbn in Hu. subst u.
        destruct (begins x KEnd s LcShutdown q1 (sock s x) ltac:(done) eq_refl Hl) as [n Hn]. exists n. split; [done|]. exact Hn.
    + done.
    + cbn [cstep1] in Hp |- *. cbn [fst snd evs omap list_omap] in Hp |- *. exists q1, 0. split; [|done]. split; [done|].
      destruct l as [y|].
      * case_decide as Hd; [|done]. destruct Hp as [Hp Hi]. split; [|done]. destruct (decide (y = x)) as [->|Hne].
        -- subst q1. right. left. split; [|done]. symmetry. by apply (forced_same x).
        -- unfold loopy in *. cbn [cg_seen cg_stable cg_visited] in Hp. set_solver.
      * case_decide as Hd; [|done].
        assert (q1 = after k ∧ u ≠ idle) as [-> Hi] by (destruct k; done). split; [|done]. right. right. split; [done|]. destruct (decide (x ∈ cg_visited g)); [by right|]. left. set_solver.
    + destruct Hv as (Hf & Hq & Hvis). cbn [cstep1] in Hp |- *. cbn [fst snd] in Hp |- *.
      destruct (decide (y = x)) as [->|Hne].
      * assert (u ≠ idle) as Hi by (destruct (over k _); apply Hp). exists q, 1. split; [done|]. rewrite one_step. rewrite sock_put by (by apply (inner_open _ k)). rewrite evs_tell.
        rewrite (step_same x t u k) in Hp |- * by done. destruct (inner_step u k q (sock s x) Hq) as [[Ho Ha]|[Ho Ha]]; rewrite Ho in Hp.
        -- destruct Hp as [Hl _]. assert (q1 = after k) as ->. { destruct Hl as [[_ ?]|[(_ & _ & ?)|[? _]]]; done. }
           rewrite <- Ha. by destruct (lc_step1 u q (sock s x)) as [[??]?].
        -- rewrite decide_True in Hp by done. destruct Hp as [-> _]. by destruct (lc_step1 u q (sock s x)) as [[??]?].
      * rewrite sock_put_ne, evs_other by done. exists q1, 0. split; [|done]. split; [done|]. destruct (over k _); [done|]. by rewrite decide_False in Hp.
    + destruct q; try done; cbn [cstep1 fst snd evs omap list_omap] in Hp |- *.
      * destruct Hp as [-> Hi]. exists QClear1, 1. split; [done|]. cbn. by rewrite sock_clear.
      * exists QReady, 1. cbn [iter lc_step1 fst snd]. rewrite sock_open. destruct (cs_open s) eqn:Eo'; destruct Hp as [-> Hi]; (split; [done|done]).
      * destruct Hp as [Hl Hi]. exists QHang.
        destruct (begins x KClear s u q1 (sock (chang s) x) ltac:(done) eq_refl Hl) as [n Hn]. exists (S n). split; [done|].
        etransitivity; [|exact Hn]. by apply iter_S.
      * destruct Hp as [-> Hi]. exists QClear, 1. split; [done|]. cbn. by rewrite sock_clear.
    + cbn [cstep1 fst snd] in Hp |- *. exists q1, 0. done.
    + cbn [cstep1 fst snd] in Hp |- *. exists q1, 0. done.
Qed.

Lemma loopy_see x k g s u q : loops u k → loopy x k (CRange (cg_seen g ∪ table k s) (cg_stable g ∩ table k s) (cg_visited g)) u q →
  ∃ q1, loopy x k g u q1 ∧ (q1 = q ∨ lc_step1 u q1 (sock s x) = (q, sock s x, None)).
Proof.
  intros Hl. unfold loopy. cbn [cg_seen cg_stable cg_visited]. intros [H|[(-> & Hs & Hv)|(-> & Hs)]]; [eauto 6|..].
  - apply elem_of_union in Hs as [Hs|Hs]; [eauto 8|]. exists (stay k). split; [by left|]. right. rewrite look by done. apply in_table in Hs. by rewrite Hs.
  - destruct (decide (x ∈ cg_visited g)); [by eauto 8|]. destruct (decide (x ∈ cg_stable g)); [|by eauto 8]. exists (stay k). split; [by left|]. right. rewrite look by done.
    destruct Hs as [Hs|Hs]; [|done]. assert (x ∉ table k s) as Ht by set_solver. rewrite in_table in Ht. by destruct (flag k (sock s x)).
Qed.
Lemma refresh x s t p u q : cvalid t p → pm x (t, sees s p) (u, q) →
  ∃ q1, pm x (t, p) (u, q1) ∧ (q1 = q ∨ lc_step1 u q1 (sock s x) = (q, sock s x, None)).
Proof.
  unfold cvalid, pm. cbn [fst snd]. intros Hv [Hu Hp]. destruct (own_call t) as [[y w]|] eqn:Eo.
  - destruct Hv as (q' & -> & _). cbn [sees] in Hp. exists q. split; [done|by left].
  - destruct p as [ |q'|k g|k g y q'|q'| | ]; cbn [sees] in Hp; try (by exists q; split; [done|by left]).
    + destruct Hp as [Hp Hi]. destruct (loopy_see x k g s u q (loops_fits x t u k Hu Hv) Hp) as (q1 & H1 & H2). exists q1. done.
    + destruct Hv as (Hf & _ & _). destruct (decide (y = x)); [by exists q; split; [done|by left]|]. destruct Hp as [Hp Hi].
      destruct (loopy_see x k g s u q (loops_fits x t u k Hu Hf) Hp) as (q1 & H1 & H2). exists q1. done.
Qed.

(** ** Whole executions *)
Lemma cvalid_run s ts sched : Forall (λ tp : ccall * cpc, cvalid tp.1 tp.2) (cc_calls (crun s ts sched)).
Proof.
  unfold crun. induction sched as [|[i l] sched IH] using rev_ind.
  - cbn. apply Forall_fmap, Forall_true. intros t. unfold compose, cvalid, cstart. cbn. destruct (own_call t); [eauto|done].
  - rewrite foldl_app. cbn [foldl]. unfold cstep. cbn [fst snd]. destruct (cc_calls _ !! i) as [[t p]|] eqn:Hi; [|done]. cbn [cc_calls]. apply Forall_fmap.
    apply (Forall_impl (λ tp : ccall * cpc, cvalid tp.1 tp.2)); [|intros [t' p'] H; by apply sees_valid]. apply Forall_insert; [done|]. cbn [fst snd]. apply cvalid_step.
    by apply (Forall_lookup_1 _ _ _ _ IH Hi).
Qed.
Lemma Forall2_middle {A B C} (P : A → B → Prop) (Q : B → C → Prop) l l' : Forall2 (λ a c, ∃ b, P a b ∧ Q b c) l l' → ∃ m, Forall2 P l m ∧ Forall2 Q m l'.
Proof. induction 1 as [|a c l l' (b & ? & ?) _ (m & ? & ?)]; [by exists []|]. exists (b :: m). by split; constructor. Qed.
Definition M (x : sid) (C : cconf) (c : lconf) : Prop :=
  lf_state c = sock (cc_state C) x ∧ lf_log c = log_of x C ∧ Forall2 (pm x) (cc_calls C) (lf_calls c).
Lemma log_of_app x i L l : omap (λ e : nat * (sid * lev), if decide (e.2.1 = x) then Some (e.1, e.2.2) else None) (L ++ ((λ e, (i, e)) <$> l)) =
  omap (λ e : nat * (sid * lev), if decide (e.2.1 = x) then Some (e.1, e.2.2) else None) L ++ ((λ e, (i, e)) <$> evs x l).
Proof. rewrite omap_app. f_equal. induction l as [|[y e] l IH]; [done|]. cbn. destruct (decide (y = x)); cbn; by rewrite IH. Qed.
Lemma refresh_all x s L L' : Forall (λ tp : ccall * cpc, cvalid tp.1 tp.2) L → Forall2 (λ tp uq, pm x (tp.1, sees s tp.2) uq) L L' →
  Forall2 (λ a c, ∃ b, pm x a b ∧ (b = c ∨ b.1 = c.1 ∧ lc_step1 b.1 b.2 (sock s x) = (c.2, sock s x, None))) L L'.
Proof.
  intros HV HL. revert HV. induction HL as [|[t' p'] [u q] L1 L2 H _ IH]; intros HV; constructor.
  - apply Forall_cons in HV as [Hv _]. destruct (refresh x _ _ _ _ _ Hv H) as (q1 & Hq1 & Hq). exists (u, q1). split; [done|]. destruct Hq as [->|Hq]; [by left|by right].
  - apply IH. by apply Forall_cons in HV as [_ HV].
Qed.
Lemma sim s ts sched x c : M x (crun s ts sched) c → reached (sock s x) c.
Proof.
  revert c. induction sched as [|[i l] sched IH] using rev_ind; intros c (Hst & Hlog & Hcs).
  - exists []. cbn [foldl]. destruct c as [v cs L]. cbn [lf_state lf_log lf_calls] in *. f_equal; [done| |done]. subst v L.
    cbn [crun foldl cc_calls] in Hcs. revert cs Hcs. induction ts as [|t ts IHt]; intros cs Hcs; cbn in Hcs.
    + by apply Forall2_nil_inv_l in Hcs as ->.
    + apply Forall2_cons_inv_l in Hcs as ([u q] & cs' & [Hu Hp] & Hcs & ->). cbn. f_equal; [|by apply IHt]. f_equal. cbn [fst snd] in Hp. unfold cstart in Hp.
      destruct (own_call t) as [[y w]|]; [|done]. destruct (decide (y = x)); [by injection Hp as <-|done].
  - unfold crun in *. rewrite foldl_app in Hst, Hlog, Hcs. cbn [foldl] in Hst, Hlog, Hcs. set (C := foldl cstep _ sched) in *. unfold cstep in Hst, Hlog, Hcs. cbn [fst snd] in *.
    destruct (cc_calls C !! i) as [[t p]|] eqn:Hi; [|by apply IH].
    pose proof (cvalid_run s ts sched) as HV. unfold crun in HV. fold C in HV.
    pose proof (Forall_lookup_1 _ _ _ _ HV Hi) as Hv. cbn [fst snd] in Hv.
    set (r := cstep1 t l p (cc_state C)) in *. cbn [cc_state cc_log cc_calls] in *.
    rewrite Forall2_fmap_l in Hcs.
    assert (Forall (λ tp : ccall * cpc, cvalid tp.1 tp.2) (<[i:=(t, r.1.1)]> (cc_calls C))) as HVi by (apply Forall_insert; [done|by apply cvalid_step]).
    assert (∃ m, Forall2 (pm x) (<[i:=(t, r.1.1)]> (cc_calls C)) m ∧ Forall2 (λ a b : lcall * lpc, a = b ∨ a.1 = b.1 ∧ lc_step1 a.1 a.2 (sock r.1.2 x) = (b.2, sock r.1.2 x, None)) m (lf_calls c)) as (m & Hm1 & Hm2).
    { apply Forall2_middle. apply refresh_all; [exact HVi|exact Hcs]. }
    destruct (silent (sock r.1.2 x) (lf_log c) [] m (lf_calls c) Hm2) as [sched2 Hs2]. cbn [app] in Hs2.
    assert (c = foldl lc_step (LConf (sock r.1.2 x) m (lf_log c)) sched2) as ->. { rewrite Hs2. destruct c as [v cs L]. cbn in *. by rewrite Hst. }
    apply reached_steps. clear Hs2 Hm2 Hcs.
    assert (∃ u q1, m !! i = Some (u, q1) ∧ pm x (t, r.1.1) (u, q1)) as (u & q1 & Hmi & Hpm).
    { assert (<[i:=(t, r.1.1)]> (cc_calls C) !! i = Some (t, r.1.1)) as Hli by (apply list_lookup_insert; by eapply lookup_lt_Some).
      destruct (Forall2_lookup_l _ _ _ _ _ Hm1 Hli) as ([u q1] & ? & ?). eauto. }
    destruct (one x t l p (cc_state C) u q1 Hv Hpm) as (q0 & n & Hpm0 & Hit). fold r in Hit.
    set (c0 := LConf (sock (cc_state C) x) (<[i := (u, q0)]> m) (log_of x C)).
    assert (Hc0 : lf_calls c0 !! i = Some (u, q0)) by (cbn; apply list_lookup_insert; by eapply lookup_lt_Some).
    assert (LConf (sock r.1.2 x) m (lf_log c) = foldl lc_step c0 (replicate n i)) as ->.
    { rewrite (block n i c0 u q0 Hc0). cbv zeta. cbn [c0 lf_state lf_calls lf_log]. rewrite Hit. cbn [fst snd]. rewrite list_insert_insert, list_insert_id by done.
      f_equal. rewrite Hlog. unfold log_of. cbn [cc_log]. apply log_of_app. }
    apply reached_steps, IH. split; [done|]. split; [done|]. cbn [c0 lf_calls].
    assert (cc_calls C = <[i:=(t, p)]> (<[i:=(t, r.1.1)]> (cc_calls C))) as -> by (by rewrite list_insert_insert, list_insert_id).
    by apply Forall2_insert.
Qed.
(** There is a matching configuration, and calls that have returned have returned in it. *)
Lemma some_match x C : Forall (λ tp : ccall * cpc, cvalid tp.1 tp.2) (cc_calls C) → ∃ c, M x C c.
Proof.
  intros HV. assert (∃ cs, Forall2 (pm x) (cc_calls C) cs) as [cs Hcs]; [|by exists (LConf (sock (cc_state C) x) cs (log_of x C))].
  induction HV as [|[t p] L Hv _ [cs IH]]; [by exists []|]. assert (∃ uq, pm x (t, p) uq) as [uq Huq]; [|by exists (uq :: cs); constructor].
  unfold pm. cbn [fst snd] in *. unfold cvalid in Hv. destruct (own_call t) as [[y w]|] eqn:Eo.
  - destruct Hv as (q & -> & _). destruct (decide (y = x)) as [->|Hne].
    + exists (w, q). split; [|done]. destruct t; try done; cbn in Eo |- *; injection Eo as -> <-; by rewrite decide_True.
    + exists (idle, if cover (MIn q) then QDone else QStart). split; [|done]. destruct t; try done; cbn in Eo |- *; injection Eo as -> <-; by rewrite decide_False.
  - assert (∃ u, seen_as x t u ∧ u ≠ idle) as (u & Hu & Hne).
    { destruct t as [| | | | |y|r|]; try done; cbn; [|by eexists..]. destruct (decide (y = x)); [by eexists|]. exists LcClient. auto. }
    assert (∀ k g, ∃ q, loopy x k g u q) as Hl.
    { intros k g. destruct (decide (x ∈ cg_visited g)); [exists (after k)|exists (stay k)]; unfold loopy; auto. }
    destruct p as [ |q|k g|k g y q|q| | ]; try done; try (by exists (u, QStart)); try (by exists (u, q)); try (by exists (u, QDone)).
    + destruct (Hl k g) as [q Hq]. by exists (u, q).
    + destruct (decide (y = x)); [by exists (u, q)|]. destruct (Hl k g) as [q' Hq]. by exists (u, q').
    + destruct Hv as [y ->]. destruct (decide (y = x)) as [->|Hn]; [exists (LcDisconnectAll, QDone)|exists (idle, QDone)]; (split; [cbn; rewrite ?decide_True, ?decide_False by done; auto|auto]).
Qed.
Lemma ccalls_step C il : (cc_calls (cstep C il)).*1 = (cc_calls C).*1.
Proof.
  unfold cstep. destruct (cc_calls C !! il.1) as [[t p]|] eqn:Hi; [|done]. cbn [cc_calls]. rewrite <- list_fmap_compose.
  transitivity ((<[il.1 := (t, (cstep1 t il.2 p (cc_state C)).1.1)]> (cc_calls C)).*1); [by apply list_fmap_ext|].
  rewrite list_fmap_insert. cbn [fst]. apply list_insert_id. by rewrite list_lookup_fmap, Hi.
Qed.
Lemma ccalls_run s ts sched : (cc_calls (crun s ts sched)).*1 = ts.
Proof.
  unfold crun. induction sched as [|il sched IH] using rev_ind; [cbn; rewrite <- list_fmap_compose; by apply list_fmap_id|]. rewrite foldl_app. cbn [foldl]. by rewrite ccalls_step.
Qed.
Lemma view s ts sched x : ∃ us sched', Forall2 (seen_as x) ts us ∧ lf_state (lc_run (sock s x) us sched') = sock (cc_state (crun s ts sched)) x ∧
  lf_log (lc_run (sock s x) us sched') = log_of x (crun s ts sched) ∧
  (∀ i t p, cc_calls (crun s ts sched) !! i = Some (t, p) → cover p = true → ∃ u, lf_calls (lc_run (sock s x) us sched') !! i = Some (u, QDone)) ∧
  ∀ i t, cc_calls (crun s ts sched) !! i = Some (t, MDone) → us !! i ≠ Some (LcJoin ∅).
Proof.
  destruct (some_match x _ (cvalid_run s ts sched)) as [c Hc]. destruct (sim s ts sched x c Hc) as [sched' Hs]. destruct Hc as (Hst & Hlog & Hcs).
  exists (lf_calls c).*1, sched'. fold (lc_run (sock s x) (lf_calls c).*1 sched') in Hs. rewrite <- Hs. split_and!; [|done|done| |].
  - rewrite <- (ccalls_run s ts sched). apply Forall2_fmap. eapply Forall2_impl; [exact Hcs|]. by intros [t p] [u q] [? _].
  - intros i t p Hi Hp. destruct (Forall2_lookup_l _ _ _ _ _ Hcs Hi) as ([u q] & Hq & Hpm). exists u. rewrite Hq. f_equal. f_equal. destruct Hpm as [_ Hpm]. cbn [fst snd] in Hpm.
    destruct (own_call t) as [[y w]|].
    + destruct (decide (y = x)); [|by rewrite Hp in Hpm]. subst p. by destruct q.
    + destruct p as [ |q'| | | | | ]; try done; by destruct Hpm.
  - intros i t Hi. destruct (Forall2_lookup_l _ _ _ _ _ Hcs Hi) as ([u q] & Hq & [Hu Hpm]). cbn [fst snd] in Hpm, Hu. rewrite list_lookup_fmap, Hq. cbn. intros [= ->].
    destruct (own_call t) as [[y w]|] eqn:Eo; [|by destruct Hpm]. pose proof (cvalid_run s ts sched) as HV. pose proof (Forall_lookup_1 _ _ _ _ HV Hi) as Hv. unfold cvalid in Hv. cbn [fst snd] in Hv.
    rewrite Eo in Hv. by destruct Hv as (? & ? & _).
Qed.
Lemma seen_in x ts us t : Forall2 (seen_as x) ts us → t ∈ ts → ∃ u, u ∈ us ∧ seen_as x t u.
Proof. intros H (i & Hi)%elem_of_list_lookup. destruct (Forall2_lookup_l _ _ _ _ _ H Hi) as (u & Hu & ?). exists u. split; [by eapply elem_of_list_lookup_2|done]. Qed.
Lemma seen_from x ts us u : Forall2 (seen_as x) ts us → u ∈ us → ∃ t, t ∈ ts ∧ seen_as x t u.
Proof. intros H (i & Hi)%elem_of_list_lookup. destruct (Forall2_lookup_r _ _ _ _ _ H Hi) as (t & Ht & ?). exists t. split; [by eapply elem_of_list_lookup_2|done]. Qed.
Lemma no_admits x ts us : Forall2 (seen_as x) ts us → (∀ b, CConnect x b ∉ ts) → Forall (λ u, ¬ admits u) us.
Proof.
  intros H Hn. apply Forall_forall. intros u (t & Ht & Hu)%(seen_from x ts us u H) Ha. destruct u; try done.
  destruct t; cbn in Hu; try (destruct (decide _)); simplify_eq; try done; try (by destruct Hu). by eapply Hn.
Qed.
Lemma returned_view s ts sched x us sched' : Forall2 (seen_as x) ts us →
  (∀ i t p, cc_calls (crun s ts sched) !! i = Some (t, p) → cover p = true → ∃ u, lf_calls (lc_run (sock s x) us sched') !! i = Some (u, QDone)) →
  creturned (crun s ts sched) → returned (lc_run (sock s x) us sched').
Proof.
  intros H Hr Hc i u q Hi. assert (length (lf_calls (lc_run (sock s x) us sched')) = length (cc_calls (crun s ts sched))) as Hl.
  { pose proof (calls_steps (LConf (sock s x) ((λ t, (t, QStart)) <$> us) []) sched') as E. apply (f_equal length) in E. rewrite !fmap_length in E. cbn in E. rewrite fmap_length in E.
    unfold lc_run. rewrite E. pose proof (ccalls_run s ts sched) as E'. apply (f_equal length) in E'. rewrite fmap_length in E'. rewrite E'. symmetry. by eapply Forall2_length. }
  destruct (lookup_lt_is_Some_2 (cc_calls (crun s ts sched)) i) as [[t p] Ht]. { rewrite <- Hl. by eapply lookup_lt_Some. }
  destruct (Hr i t p Ht) as [u' Hu]; [|congruence]. eapply Hc, elem_of_list_lookup_2, Ht.
Qed.
Lemma joinable_view x ts us r : Forall2 (seen_as x) ts us → joinable us r → ∃ rs, CJoin x rs ∈ ts ∧ r ∈ rs.
Proof.
  intros H (rs & Hu & Hr). destruct (seen_from x ts us _ H Hu) as (t & Ht & Hs). destruct t; cbn in Hs; try (destruct (decide _)); simplify_eq; try (by apply elem_of_empty in Hr); eauto.
  destruct Hs as [?|[= ->]]; [done|]. by apply elem_of_empty in Hr.
Qed.
Lemma closed_by s ts sched x us sched' u : settled (sock s x) → (∀ b, CConnect x b ∉ ts) → Forall2 (seen_as x) ts us → u ∈ us → closes u →
  lf_state (lc_run (sock s x) us sched') = sock (cc_state (crun s ts sched)) x → lf_log (lc_run (sock s x) us sched') = log_of x (crun s ts sched) →
  returned (lc_run (sock s x) us sched') →
  gone (sock (cc_state (crun s ts sched)) x) ∧ (∀ r, r ∈ ls_rooms (sock (cc_state (crun s ts sched)) x) → ∃ rs, CJoin x rs ∈ ts ∧ r ∈ rs) ∧ 1 ≤ byes_of x (crun s ts sched).
Proof.
  intros Hs Hn H Hu Hc Hst Hlog Hr. pose proof (no_admits x ts us H Hn) as Ha.
  destruct (c51_gone_l (sock s x) us sched' u Hs Ha Hu Hc Hr) as [H1 H2]. rewrite Hst in H1, H2. split_and!; [done| |].
  - intros r Hx. by apply (joinable_view x ts us r H), H2.
  - pose proof (c51_said_l (sock s x) us sched' u Hs Ha Hu Hc Hr) as H3. unfold disconnects in H3. rewrite Hlog in H3. exact H3.
Qed.
Lemma closed s ts sched x t : settled (sock s x) → (∀ b, CConnect x b ∉ ts) → t ∈ ts → must_close x t → creturned (crun s ts sched) →
  gone (sock (cc_state (crun s ts sched)) x) ∧ (∀ r, r ∈ ls_rooms (sock (cc_state (crun s ts sched)) x) → ∃ rs, CJoin x rs ∈ ts ∧ r ∈ rs) ∧ 1 ≤ byes_of x (crun s ts sched).
Proof.
  intros Hs Hn Ht Hm Hr. destruct (view s ts sched x) as (us & sched' & H & Hst & Hlog & Hd & _). destruct (seen_in x ts us t H Ht) as (u & Hu & Hsu).
  apply (closed_by s ts sched x us sched' u); try done; [|by eapply returned_view].
  destruct t; cbn in Hm, Hsu; try done; try (rewrite decide_True in Hsu by done); by rewrite Hsu.
Qed.
Lemma closed_all s ts sched x y : settled (sock s x) → (∀ b, CConnect x b ∉ ts) → (CDisconnectAll y, MDone) ∈ cc_calls (crun s ts sched) → creturned (crun s ts sched) →
  gone (sock (cc_state (crun s ts sched)) x) ∧ (∀ r, r ∈ ls_rooms (sock (cc_state (crun s ts sched)) x) → ∃ rs, CJoin x rs ∈ ts ∧ r ∈ rs) ∧ 1 ≤ byes_of x (crun s ts sched).
Proof.
  intros Hs Hn (i & Hi)%elem_of_list_lookup Hr. destruct (view s ts sched x) as (us & sched' & H & Hst & Hlog & Hd & Hu).
  assert (ts !! i = Some (CDisconnectAll y)) as Hti by (rewrite <- (ccalls_run s ts sched), list_lookup_fmap, Hi; done).
  destruct (Forall2_lookup_l _ _ _ _ _ H Hti) as (u & Hui & Hsu).
  apply (closed_by s ts sched x us sched' u); try done; [by eapply elem_of_list_lookup_2| |by eapply returned_view].
  specialize (Hu i _ Hi). cbn in Hsu. destruct (decide (y = x)); [by subst u|]. destruct Hsu as [-> | ->]; done.
Qed.
Lemma count_view x ts us : Forall2 (seen_as x) ts us → length (filter closes us) ≤ length (filter (may_close x) ts).
Proof.
  induction 1 as [|t u ts us H _ IH]; [done|]. rewrite !filter_cons. destruct (decide (closes u)) as [Hc|Hc].
  - rewrite decide_True; [cbn; lia|]. destruct t; cbn in H |- *; try done; try (destruct (decide _)); by subst.
  - destruct (decide (may_close x t)); cbn; lia.
Qed.
Lemma counted s ts sched x : settled (sock s x) → (∀ b, CConnect x b ∉ ts) → byes_of x (crun s ts sched) ≤ length (filter (may_close x) ts).
Proof.
  intros Hs Hn. destruct (view s ts sched x) as (us & sched' & H & Hst & Hlog & _). etransitivity; [|by apply (count_view x ts us)].
  pose proof (c51_count_l (sock s x) us sched' Hs (no_admits x ts us H Hn)) as Hc. unfold disconnects in Hc. by rewrite Hlog in Hc.
Qed.
Lemma each s ts sched x i : settled (sock s x) → (∀ b, CConnect x b ∉ ts) → ∃ r, ends_of x i (crun s ts sched) `prefix_of` [VDisconnecting r; VDisconnect r].
Proof.
  intros Hs Hn. destruct (view s ts sched x) as (us & sched' & H & Hst & Hlog & _).
  destruct (c51_call_l (sock s x) us sched' i Hs (no_admits x ts us H Hn)) as [r Hr]. exists r. unfold endings, events_of in Hr. by rewrite Hlog in Hr.
Qed.
Lemma refused s ts sched x b : fresh (sock s x) → CConnect x b ∈ ts → (∀ b', CConnect x b' ∈ ts → b' = b) → cs_open s = false ∨ b = true →
  ls_connected (sock (cc_state (crun s ts sched)) x) = false ∧ (∀ e, e ∈ log_of x (crun s ts sched) → e.2 = VDenied) ∧
  (creturned (crun s ts sched) → gone (sock (cc_state (crun s ts sched)) x)).
Proof.
  intros Hf Hin Hb Ho. destruct (view s ts sched x) as (us & sched' & H & Hst & Hlog & Hd & _). destruct (seen_in x ts us _ H Hin) as (u & Hu & Hsu). cbn in Hsu. rewrite decide_True in Hsu by done. subst u.
  destruct (c51_refused_l (sock s x) us sched' x b Hf Hu) as (H1 & H2 & H3); [|done|].
  { apply Forall_forall. intros u (t & Ht & Hsu)%(seen_from x ts us u H). destruct u as [o b'| | | | | | | | ]; try done.
    destruct t as [y b''| | | | |y| | ]; cbn in Hsu; try (destruct (decide (_ = x))); simplify_eq; try done; try (by destruct Hsu). split; [done|]. by apply Hb. }
  rewrite Hst in H1, H3. rewrite Hlog in H2. split_and!; [done|done|]. intros Hr. apply H3. by eapply returned_view.
Qed.
Lemma admitted s ts sched x : fresh (sock s x) → cs_open s = true → (∀ t, t ∈ ts → ¬ may_close x t) → (∀ b, CConnect x b ∉ ts) → creturned (crun s (CConnect x false :: ts) sched) →
  settled (sock (cc_state (crun s (CConnect x false :: ts) sched)) x) ∧ (log_of x (crun s (CConnect x false :: ts) sched)).*2 = [VPacket; VConnect; VConnection].
Proof.
  intros Hf Ho Hm Hn Hr. destruct (view s (CConnect x false :: ts) sched x) as (us & sched' & H & Hst & Hlog & Hd & _).
  pose proof (returned_view s (CConnect x false :: ts) sched x us sched' H Hd Hr) as Hret. apply Forall2_cons_inv_l in H as (u & us' & Hu & H & ->). cbn in Hu. rewrite decide_True in Hu by done. subst u.
  destruct (c51_admitted_l (sock s x) us' sched' x Hf Ho) as [H1 H2]; [|done|].
  { apply Forall_forall. intros u Hu. split; [by apply (Forall_forall (λ u, ¬ admits u) us'); [eapply no_admits|]|]. destruct (seen_from x ts us' u H Hu) as (t & Ht & Hsu).
    intros Hc. apply (Hm t Ht). destruct t; cbn in Hsu |- *; try done; try (destruct (decide _)); by subst. }
  rewrite Hst in H1. rewrite Hlog in H2. done.
Qed.
Lemma new_fresh s x : cs_socks s !! x = None → fresh (sock s x) ∧ ls_rooms (sock s x) = ∅.
Proof. intros H. unfold sock. rewrite H. by repeat split. Qed.
