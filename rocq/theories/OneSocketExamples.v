(** Concrete clusters for the statements about operations addressed to one socket. *)
From Verif Require Import Base GoTypes Rooms Adapter AdapterSpec Cluster ClusterSpec ClusterProofs OneSocketSpec.

(** A test for [disciplined]. *)
Definition opened_list (h : list cop) : list sid := omap (λ op, match op with CLocal _ (LOpen id) => Some id | _ => None end) h.
Definition sparesb (ids : list sid) (op : cop) : bool :=
  match op with
  | CCall _ (GJoin rs) _ _ _ _ _ _ | CCall _ (GLeave rs) _ _ _ _ _ _ => forallb (λ r, negb (bool_decide (r ∈ ids))) rs
  | CLocal _ (LJoin id rs) => forallb (λ r, negb (bool_decide (r ∈ ids)) || bool_decide (r = id)) rs
  | CLocal _ (LLeave id r) => negb (bool_decide (r = id))
  | _ => true
  end.
Definition freshb (s : cluster) (id : sid) : bool :=
  forallb (λ x : string * node, match ns_sockets x.2 !! id with Some _ => false | None => true end) (map_to_list (cl_nodes s)).
Definition distinctb (csr : bool) (uids : gset string) (h : list cop) : bool :=
  forallb (λ i, match h !! i with Some (CLocal _ (LOpen id)) => freshb (crun csr uids (take i h)) id | _ => true end) (seq 0 (length h)).
Lemma opened_list_spec h id : opened h id → id ∈ opened_list h.
Proof. intros [n Hn]. apply elem_of_list_omap. by exists (CLocal n (LOpen id)). Qed.
Lemma opened_elem h id n : CLocal n (LOpen id) ∈ h → opened h id.
Proof. intros H. by exists n. Qed.
Lemma distinct_test csr uids h : distinctb csr uids h = true → ids_distinct csr uids h.
Proof.
  intros H2 h1 n id h2 -> m nd E [a Ha]. unfold distinctb in H2. rewrite forallb_forall in H2. specialize (H2 (length h1)).
  rewrite list_lookup_middle in H2 by done. rewrite take_app in H2. assert (freshb (crun csr uids h1) id = true) as H.
  { apply H2. apply in_seq. rewrite app_length. cbn. lia. }
  unfold freshb in H. rewrite forallb_forall in H. specialize (H (m, nd)). cbn in H. rewrite Ha in H. discriminate H. apply elem_of_list_In. by apply elem_of_map_to_list.
Qed.
Lemma disciplined_test csr uids h : forallb (sparesb (opened_list h)) h = true → distinctb csr uids h = true → disciplined csr uids h.
Proof.
  intros H1 H2. split.
  - rewrite forallb_forall in H1. apply Forall_forall. intros op Hop. apply elem_of_list_In, H1 in Hop. clear H1 H2.
    destruct op as [n g opts pub echo e1 e2 os|i os|n l]; cbn in *; [|done|].
    + destruct g as [ty ack data|rs|rs|]; try done; rewrite forallb_forall in Hop; intros r Hr Ho; apply elem_of_list_In, Hop in Hr; apply opened_list_spec in Ho; by rewrite bool_decide_eq_true_2 in Hr.
    + destruct l as [id|id rs|id r|id o]; try done.
      * rewrite forallb_forall in Hop. intros r Hr Ho. apply elem_of_list_In, Hop in Hr. apply opened_list_spec in Ho. rewrite bool_decide_eq_true_2 in Hr by done. by apply bool_decide_eq_true in Hr.
      * intros ->. by rewrite bool_decide_eq_true_2 in Hop.
  - by apply distinct_test.
Qed.
(** Two sockets "a" and "b" on the servers A and B of three; "b" is also in room "x". *)
Definition one_uids : gset string := {["A"; "B"; "C"]}.
Definition one_setup : list cop := [CLocal "A" (LOpen "a"); CLocal "A" (LJoin "a" ["x"]); CLocal "B" (LOpen "b"); CLocal "B" (LJoin "b" ["x"])].
Definition one_flags : flags := Flags false false false false false false None true.
Definition one_call (n : string) (g : gop) (id : sid) (pub : option string) : cop := CCall n g (Some (to_one id one_flags)) pub false ord_std ord_rev orders_std.
Definition one_bcast (n : string) (id : sid) : cop := one_call n (GBroadcast EVENT false [VStr "ev"]) id (Some "7").
Definition one_deliver (i : nat) : cop := CDeliver i orders_std.
(** Everything written on account of step [k]: server, socket, data. *)
Definition one_writes_of (s : cluster) (k : nat) : list (string * (sid * list value)) :=
  m ← ["A"; "B"; "C"]; (λ w, (m, w)) <$> writes s m k.
Lemma one_orders : orders_ok orders_std.
Proof. repeat split; intros; apply ord_std_ok. Qed.
(** A test for the side conditions, given the orders used above. *)
Definition one_step (op : cop) : Prop :=
  match op with
  | CCall n g opts pub echo e1 e2 os => n ∈ one_uids ∧ e1 = ord_std ∧ e2 = ord_rev ∧ os = orders_std
  | CDeliver _ os => os = orders_std
  | CLocal _ (LClose _ o) => o = ord_std
  | CLocal _ _ => True
  end.
Lemma one_step_ok h : Forall one_step h → Forall (cop_ok one_uids) h.
Proof.
  intros H. eapply Forall_impl; [exact H|]. clear H. intros [n g opts pub echo e1 e2 os|i os|n [id|id rs|id r|id o]]; cbn; try done.
  - intros (H & -> & -> & ->). split; [done|]. split; [apply ord_std_ok|]. split; [apply ord_rev_ok|apply one_orders].
  - intros ->. apply one_orders.
  - intros ->. apply ord_std_ok.
Qed.
Ltac one_ok := apply one_step_ok; repeat first [apply Forall_nil_2|apply Forall_cons_2]; cbn; try done; (split; [by_eval|done]).
Ltac one_disc := apply disciplined_test; vm_compute; reflexivity.
Lemma open_test s m id : (match cl_nodes s !! m with Some nd => match ns_sockets nd !! id with Some _ => true | None => false end | None => false end) = true → open_on s m id.
Proof. unfold open_on, listed. destruct (cl_nodes s !! m) as [nd|]; [|done]. intros H. exists nd. split; [done|]. destruct (ns_sockets nd !! id); [by eexists|done]. Qed.
Ltac one_open := apply open_test; vm_compute; reflexivity.
