(** Concrete schedules for the statements about the store of the session-aware adapter under concurrency. *)
From Verif Require Import Base GoTypes Session SessionSpec SessionConc SessionConcSpec.

(** A test for [q_start]. *)
Definition q_ids (ts : list qthread) : list string := omap (λ t, match t with QBcast id _ _ => Some id | _ => None end) ts.
Lemma q_ids_lookup ts i id b pc : ts !! i = Some (QBcast id b pc) → id ∈ q_ids ts.
Proof. intros H. apply elem_of_list_omap. exists (QBcast id b pc). split; [by eapply elem_of_list_lookup_2|done]. Qed.
Lemma q_ids_inj ts i j id b pc b' pc' : NoDup (q_ids ts) → ts !! i = Some (QBcast id b pc) → ts !! j = Some (QBcast id b' pc') → i = j.
Proof.
  revert i j. induction ts as [|t ts IH]; intros i j Hn Hi Hj; [done|]. destruct i as [|i], j as [|j]; cbn in Hi, Hj; [done|..].
  - injection Hi as ->. cbn in Hn. apply NoDup_cons in Hn as [Hn _]. exfalso. apply Hn. exact (q_ids_lookup _ _ _ _ _ Hj).
  - injection Hj as ->. cbn in Hn. apply NoDup_cons in Hn as [Hn _]. exfalso. apply Hn. exact (q_ids_lookup _ _ _ _ _ Hi).
  - f_equal. apply (IH i j); [|done..]. destruct t; [cbn in Hn; by apply NoDup_cons in Hn as [_ Hn]|exact Hn..].
Qed.
Lemma q_start_test ps ts : Forall q_fresh ts → Forall (λ p, p_proper (sp_opts p)) ps → NoDup ((sp_id <$> ps) ++ q_ids ts) → q_start ps ts.
Proof.
  intros H1 H2 H3. apply NoDup_app in H3 as (H3 & H4 & H5). split; [done|]. split; [done|]. split; [done|]. split.
  - intros i id b Hi Hin. eapply H4; [exact Hin|]. by eapply q_ids_lookup.
  - intros i j id b b' Hi Hj. by eapply q_ids_inj.
Qed.

(** Packets to the room "r"; a client "s" that is in its own room and in "r". *)
Definition qx_opts : option bopts := Some (BOpts (Some {["r"]}) (Some ∅) None).
Definition qx_b (x : string) : bcast := Bcast EVENT false [VStr x] qx_opts.
Definition qx_p (id : string) (t : Z) : spacket := SPacket id t [VStr "ev"; VStr id] qx_opts.
Definition qx_s : session := Session "s" "pid" {["s"; "r"]} VNil.
Definition qx_bcast (id : string) : qthread := QBcast id (qx_b "ev") QB0.
Definition qx_restore (off : string) : qthread := QRestore ord_std "pid" off QR0.
Definition qx_times (n : nat) (i : nat) (t : Z) : list (nat * Z) := replicate n (i, t).

Ltac qx_start :=
  apply q_start_test;
  [ repeat (apply Forall_cons; split; [first [done | split; [done|]; first [by apply ord_std_ok | by eexists _, _, _]]|]); by apply Forall_nil
  | repeat (apply Forall_cons; split; [by eexists _, _, _|]); by apply Forall_nil
  | apply (bool_decide_unpack _); vm_compute; exact I ].
