(** Proofs about [Rooms.v]: membership, events, target selection. *)
From Verif Require Import Base Rooms RoomsSpec.

(** ** Invariant of the two tables *)

(** The two tables agree, and no listed room is empty. *)
Definition reg_inv (g : registry) : Prop :=
  (∀ id r, id ∈ members_of g r ↔ r ∈ rooms_of g id) ∧
  (∀ r ids, rg_rooms g !! r = Some ids → ids ≠ ∅).

Lemma members_insert (m : gmap room (gset sid)) s r ids r' :
  members_of (Registry (<[r:=ids]> m) s) r' = if decide (r' = r) then ids else default ∅ (m !! r').
Proof. unfold members_of; simpl. destruct (decide (r' = r)) as [->|]; [by rewrite lookup_insert|by rewrite lookup_insert_ne]. Qed.
Lemma rooms_of_insert m s id rs id' :
  rooms_of (Registry m (<[id:=rs]> s)) id' = if decide (id' = id) then rs else default ∅ (s !! id').
Proof. unfold rooms_of; simpl. destruct (decide (id' = id)) as [->|]; [by rewrite lookup_insert|by rewrite lookup_insert_ne]. Qed.

(** *** AddAll *)
Lemma add_one_members id g log r id' r' :
  id' ∈ members_of (add_one id (g, log) r).1 r' ↔ id' ∈ members_of g r' ∨ (id' = id ∧ r' = r).
Proof.
  unfold add_one. destruct (rg_rooms g !! r) as [ids|] eqn:Hr; simpl.
  - destruct (decide (id ∈ ids)); simpl; rewrite members_insert; destruct (decide (r' = r)) as [->|];
      unfold members_of; try rewrite Hr; simpl; set_solver.
  - destruct (decide (id ∈ (∅ : gset sid))); simpl; rewrite members_insert; destruct (decide (r' = r)) as [->|];
      unfold members_of; try rewrite Hr; simpl; set_solver.
Qed.

Lemma add_one_sids id g log r :
  rg_sids (add_one id (g, log) r).1 = <[id := {[r]} ∪ rooms_of g id]> (rg_sids g).
Proof. unfold add_one, rooms_of. destruct (rg_rooms g !! r); simpl; by case_decide. Qed.

Lemma add_one_rooms_of id g log r id' r' :
  r' ∈ rooms_of (add_one id (g, log) r).1 id' ↔ r' ∈ rooms_of g id' ∨ (id' = id ∧ r' = r).
Proof.
  unfold rooms_of at 1. rewrite add_one_sids.
  destruct (decide (id' = id)) as [->|].
  - rewrite lookup_insert. simpl. set_solver.
  - rewrite lookup_insert_ne by done. unfold rooms_of. set_solver.
Qed.

Lemma add_one_nonempty id g log r :
  (∀ r ids, rg_rooms g !! r = Some ids → ids ≠ ∅) →
  (∀ r' ids, rg_rooms (add_one id (g, log) r).1 !! r' = Some ids → ids ≠ ∅).
Proof.
  intros Hne r' ids. unfold add_one. destruct (rg_rooms g !! r) as [ids0|] eqn:Hr; simpl.
  - destruct (decide (id ∈ ids0)); simpl; destruct (decide (r = r')) as [<-|];
      rewrite ?lookup_insert, ?lookup_insert_ne by done; try apply Hne; intros [= <-]; set_solver.
  - destruct (decide (id ∈ (∅:gset sid))); simpl; destruct (decide (r = r')) as [<-|];
      rewrite ?lookup_insert, ?lookup_insert_ne by done; try apply Hne; intros [= <-]; set_solver.
Qed.

Lemma add_one_inv id g log r : reg_inv g → reg_inv (add_one id (g, log) r).1.
Proof.
  intros [H1 H2]. split.
  - intros id' r'. rewrite add_one_members, add_one_rooms_of, H1. done.
  - by apply add_one_nonempty.
Qed.

Lemma add_loop_members id rs g log id' r' :
  id' ∈ members_of (foldl (add_one id) (g, log) rs).1 r' ↔ id' ∈ members_of g r' ∨ (id' = id ∧ r' ∈ rs).
Proof.
  revert g log. induction rs as [|r rs IH]; intros g log; cbn [foldl]; [set_solver|].
  destruct (add_one id (g, log) r) as [g' log'] eqn:E. rewrite IH.
  replace g' with (add_one id (g, log) r).1 by by rewrite E.
  rewrite add_one_members. set_solver.
Qed.
Lemma add_loop_rooms_of id rs g log id' r' :
  r' ∈ rooms_of (foldl (add_one id) (g, log) rs).1 id' ↔ r' ∈ rooms_of g id' ∨ (id' = id ∧ r' ∈ rs).
Proof.
  revert g log. induction rs as [|r rs IH]; intros g log; cbn [foldl]; [set_solver|].
  destruct (add_one id (g, log) r) as [g' log'] eqn:E. rewrite IH.
  replace g' with (add_one id (g, log) r).1 by by rewrite E.
  rewrite add_one_rooms_of. set_solver.
Qed.
Lemma add_loop_inv id rs g log : reg_inv g → reg_inv (foldl (add_one id) (g, log) rs).1.
Proof.
  revert g log. induction rs as [|r rs IH]; intros g log H; cbn [foldl]; [done|].
  destruct (add_one id (g, log) r) as [g' log'] eqn:E. apply IH.
  replace g' with (add_one id (g, log) r).1 by by rewrite E. by apply add_one_inv.
Qed.
Lemma add_loop_known id rs g log id' :
  is_Some (rg_sids (foldl (add_one id) (g, log) rs).1 !! id') ↔
  is_Some (rg_sids g !! id') ∨ (id' = id ∧ rs ≠ []).
Proof.
  revert g log. induction rs as [|r rs IH]; intros g log; cbn [foldl]; [naive_solver|].
  destruct (add_one id (g, log) r) as [g' log'] eqn:E. rewrite IH.
  replace g' with (add_one id (g, log) r).1 by by rewrite E.
  rewrite add_one_sids. rewrite lookup_insert_is_Some'.
  destruct (decide (id' = id)); naive_solver.
Qed.

Lemma add_all_members id rs g id' r' :
  id' ∈ members_of (add_all id rs g).1 r' ↔ id' ∈ members_of g r' ∨ (id' = id ∧ r' ∈ rs).
Proof. unfold add_all. rewrite add_loop_members. done. Qed.

Lemma sids0_rooms_of g id id' m :
  rooms_of (Registry m (match rg_sids g !! id with Some _ => rg_sids g | None => <[id := ∅]> (rg_sids g) end)) id'
  = rooms_of g id'.
Proof.
  destruct (rg_sids g !! id) eqn:E; [done|]. rewrite rooms_of_insert. case_decide; [subst|done].
  unfold rooms_of. by rewrite E.
Qed.
Lemma add_all_rooms_of id rs g id' r' :
  r' ∈ rooms_of (add_all id rs g).1 id' ↔ r' ∈ rooms_of g id' ∨ (id' = id ∧ r' ∈ rs).
Proof. unfold add_all. rewrite add_loop_rooms_of, sids0_rooms_of. done. Qed.
Lemma add_all_inv id rs g : reg_inv g → reg_inv (add_all id rs g).1.
Proof.
  intros [H1 H2]. unfold add_all. apply add_loop_inv. split.
  - intros id' r'. rewrite sids0_rooms_of. apply H1.
  - done.
Qed.
Lemma add_all_known id rs g id' :
  is_Some (rg_sids (add_all id rs g).1 !! id') ↔ is_Some (rg_sids g !! id') ∨ id' = id.
Proof.
  unfold add_all. rewrite add_loop_known. simpl.
  destruct (rg_sids g !! id) eqn:E.
  - split; [naive_solver|]. intros [?| ->]; [by left|left; by eexists].
  - rewrite lookup_insert_is_Some'. naive_solver.
Qed.

(** *** _del, Del, DelAll *)
Lemma del_from_room_sids rep r id g : rg_sids (del_from_room rep r id g).1 = rg_sids g.
Proof. unfold del_from_room. destruct (rg_rooms g !! r); [|done]. by case_decide. Qed.
Lemma del_from_room_members rep r id g id' r' :
  id' ∈ members_of (del_from_room rep r id g).1 r' ↔ id' ∈ members_of g r' ∧ ¬ (id' = id ∧ r' = r).
Proof.
  unfold del_from_room. destruct (rg_rooms g !! r) as [ids|] eqn:Hr; simpl.
  - case_decide as Hsz; simpl.
    + apply size_empty_inv in Hsz. unfold members_of; simpl.
      destruct (decide (r' = r)) as [->|].
      * rewrite lookup_delete, Hr. simpl. set_solver.
      * rewrite lookup_delete_ne by done. naive_solver.
    + rewrite members_insert. unfold members_of. case_decide; subst; [rewrite Hr; simpl; set_solver|naive_solver].
  - unfold members_of. destruct (decide (r' = r)) as [->|]; [rewrite Hr; simpl; set_solver|naive_solver].
Qed.
Lemma del_from_room_nonempty rep r id g :
  (∀ r ids, rg_rooms g !! r = Some ids → ids ≠ ∅) →
  (∀ r' ids, rg_rooms (del_from_room rep r id g).1 !! r' = Some ids → ids ≠ ∅).
Proof.
  intros Hne r' ids. unfold del_from_room. destruct (rg_rooms g !! r) as [ids0|] eqn:Hr; simpl; [|by apply Hne].
  case_decide as Hsz; simpl.
  - rewrite lookup_delete_Some. intros [_ ?]. by eapply Hne.
  - destruct (decide (r = r')) as [<-|].
    + rewrite lookup_insert. intros [= <-] E. apply Hsz. by rewrite E, size_empty.
    + rewrite lookup_insert_ne by done. apply Hne.
Qed.

Lemma del_rooms_app rep id rs g log :
  foldl (λ acc r, let '(g', l') := del_from_room rep r id acc.1 in (g', acc.2 ++ l')) (g, log) rs
  = ((del_rooms rep id rs g).1, log ++ (del_rooms rep id rs g).2).
Proof.
  unfold del_rooms. revert g log. induction rs as [|r rs IH]; intros g log; simpl.
  - by rewrite app_nil_r.
  - destruct (del_from_room rep r id g) as [g' l'] eqn:E. rewrite IH. symmetry. rewrite IH. simpl.
    by rewrite app_assoc.
Qed.
Lemma del_rooms_cons rep id r rs g :
  del_rooms rep id (r :: rs) g =
  ((del_rooms rep id rs (del_from_room rep r id g).1).1,
   (del_from_room rep r id g).2 ++ (del_rooms rep id rs (del_from_room rep r id g).1).2).
Proof.
  unfold del_rooms at 1. simpl. destruct (del_from_room rep r id g) as [g' l']. simpl. by rewrite del_rooms_app.
Qed.
Lemma del_rooms_sids rep id rs g : rg_sids (del_rooms rep id rs g).1 = rg_sids g.
Proof.
  revert g; induction rs as [|r rs IH]; intros g; [done|].
  rewrite del_rooms_cons; simpl. by rewrite IH, del_from_room_sids.
Qed.
Lemma del_rooms_members rep id rs g id' r' :
  id' ∈ members_of (del_rooms rep id rs g).1 r' ↔ id' ∈ members_of g r' ∧ ¬ (id' = id ∧ r' ∈ rs).
Proof.
  revert g; induction rs as [|r rs IH]; intros g; [set_solver|].
  rewrite del_rooms_cons; simpl. rewrite IH, del_from_room_members. set_solver.
Qed.
Lemma del_rooms_nonempty rep id rs g :
  (∀ r ids, rg_rooms g !! r = Some ids → ids ≠ ∅) →
  (∀ r' ids, rg_rooms (del_rooms rep id rs g).1 !! r' = Some ids → ids ≠ ∅).
Proof.
  revert g; induction rs as [|r rs IH]; intros g H; [done|].
  rewrite del_rooms_cons; simpl. apply IH. by apply del_from_room_nonempty.
Qed.

Lemma del_members rep id r g id' r' :
  id' ∈ members_of (del rep id r g).1 r' ↔ id' ∈ members_of g r' ∧ ¬ (id' = id ∧ r' = r).
Proof. unfold del. rewrite del_from_room_members. done. Qed.
Lemma del_rooms_of rep id r g id' r' :
  r' ∈ rooms_of (del rep id r g).1 id' ↔ r' ∈ rooms_of g id' ∧ ¬ (id' = id ∧ r' = r).
Proof.
  unfold del, rooms_of at 1. rewrite del_from_room_sids. simpl.
  destruct (rg_sids g !! id) as [rs|] eqn:E; simpl.
  - destruct (decide (id' = id)) as [->|].
    + rewrite lookup_insert. unfold rooms_of. rewrite E. simpl. set_solver.
    + rewrite lookup_insert_ne by done. unfold rooms_of. naive_solver.
  - unfold rooms_of. destruct (decide (id' = id)) as [->|]; [rewrite E; simpl; set_solver|naive_solver].
Qed.
Lemma del_inv rep id r g : reg_inv g → reg_inv (del rep id r g).1.
Proof.
  intros [H1 H2]. split.
  - intros id' r'. by rewrite del_members, del_rooms_of, H1.
  - by apply del_from_room_nonempty.
Qed.
Lemma del_known rep id r g id' : is_Some (rg_sids (del rep id r g).1 !! id') ↔ is_Some (rg_sids g !! id').
Proof.
  unfold del. rewrite del_from_room_sids. simpl. destruct (rg_sids g !! id) eqn:E; [|done].
  rewrite lookup_insert_is_Some'. naive_solver.
Qed.

Lemma del_all_members rep o id g id' r' :
  order_ok o → reg_inv g →
  id' ∈ members_of (del_all rep o id g).1 r' ↔ id' ∈ members_of g r' ∧ id' ≠ id.
Proof.
  intros Ho [H1 H2]. unfold del_all. destruct (rg_sids g !! id) as [rs|] eqn:E; simpl.
  - destruct (del_rooms rep id (o rs) g) as [g' log] eqn:E'. simpl.
    change (members_of (Registry (rg_rooms g') (delete id (rg_sids g'))) r') with (members_of g' r').
    replace g' with (del_rooms rep id (o rs) g).1 by by rewrite E'.
    rewrite del_rooms_members, order_elem by done.
    split; [|naive_solver]. intros [Hm Hn]. split; [done|]. intros ->. apply Hn. split; [done|].
    apply H1 in Hm. unfold rooms_of in Hm. by rewrite E in Hm.
  - split; [|naive_solver]. intros Hm. split; [done|]. intros ->.
    apply H1 in Hm. unfold rooms_of in Hm. rewrite E in Hm. set_solver.
Qed.
Lemma del_all_rooms_of rep o id g id' r' :
  r' ∈ rooms_of (del_all rep o id g).1 id' ↔ r' ∈ rooms_of g id' ∧ id' ≠ id.
Proof.
  unfold del_all. destruct (rg_sids g !! id) as [rs|] eqn:E; simpl.
  - destruct (del_rooms rep id (o rs) g) as [g' log] eqn:E'. simpl. unfold rooms_of at 1. simpl.
    replace (rg_sids g') with (rg_sids g) by (rewrite <- (del_rooms_sids rep id (o rs) g); by rewrite E').
    destruct (decide (id' = id)) as [->|].
    + rewrite lookup_delete. simpl. set_solver.
    + rewrite lookup_delete_ne by done. unfold rooms_of. naive_solver.
  - split; [|naive_solver]. intros Hm. split; [done|]. intros ->. unfold rooms_of in Hm. rewrite E in Hm. set_solver.
Qed.
Lemma del_all_inv rep o id g : order_ok o → reg_inv g → reg_inv (del_all rep o id g).1.
Proof.
  intros Ho Hi. split.
  - intros id' r'. rewrite del_all_members, del_all_rooms_of by done. destruct Hi as [H _]. by rewrite H.
  - destruct Hi as [_ H2]. unfold del_all. destruct (rg_sids g !! id) as [rs|] eqn:E; simpl; [|done].
    destruct (del_rooms rep id (o rs) g) as [g' log] eqn:E'. simpl.
    replace g' with (del_rooms rep id (o rs) g).1 by by rewrite E'. by apply del_rooms_nonempty.
Qed.
Lemma del_all_sids rep o id g : rg_sids (del_all rep o id g).1 = delete id (rg_sids g).
Proof.
  unfold del_all. destruct (rg_sids g !! id) as [rs|] eqn:E; simpl.
  - destruct (del_rooms rep id (o rs) g) as [g' log] eqn:E'. simpl.
    by rewrite <- (del_rooms_sids rep id (o rs) g), E'.
  - by rewrite delete_notin.
Qed.
Lemma del_all_known rep o id g id' :
  is_Some (rg_sids (del_all rep o id g).1 !! id') ↔ is_Some (rg_sids g !! id') ∧ id' ≠ id.
Proof. rewrite del_all_sids, lookup_delete_is_Some. naive_solver. Qed.

(** ** Histories *)
Lemma run_ops_snoc rep h op :
  run_ops rep (h ++ [op]) = ((run_op rep op (run_ops rep h).1).1, (run_ops rep h).2 ++ (run_op rep op (run_ops rep h).1).2).
Proof.
  unfold run_ops. rewrite foldl_app. simpl.
  destruct (run_op rep op _) as [g' l'] eqn:E. done.
Qed.

Lemma run_op_inv rep op g : op_ok op → reg_inv g → reg_inv (run_op rep op g).1.
Proof. destruct op; simpl; intros; [by apply add_all_inv|by apply del_inv|by apply del_all_inv]. Qed.

Lemma empty_inv : reg_inv empty_registry.
Proof. split; [|done]. intros id r. unfold members_of, rooms_of; simpl. rewrite !lookup_empty. simpl. set_solver. Qed.

Lemma run_ops_inv rep h : Forall op_ok h → reg_inv (run_ops rep h).1.
Proof.
  induction h as [|op h IH] using rev_ind; intros H; [apply empty_inv|].
  apply Forall_app in H as [H1 H2]. rewrite run_ops_snoc. simpl.
  apply run_op_inv; [by inversion H2|auto].
Qed.

Lemma is_member_nil id r : ¬ is_member [] id r.
Proof. intros (b & rs & a & H & _). by destruct b. Qed.
Lemma is_member_snoc h op id r :
  is_member (h ++ [op]) id r ↔
  (is_member h id r ∧ ¬ op_leaves id r op) ∨ (∃ rs, op = OpJoin id rs ∧ r ∈ rs).
Proof.
  split.
  - intros (b & rs & a & H & Hr & Hf). destruct a as [|x a _] using rev_ind.
    + apply app_inj_tail in H as [-> ->]. right. eauto.
    + rewrite app_comm_cons, app_assoc in H. apply app_inj_tail in H as [-> ->].
      apply Forall_app in Hf as [Hf1 Hf2]. left. split; [|by inversion Hf2]. exists b, rs, a. done.
  - intros [[(b & rs & a & -> & Hr & Hf) Hn]|(rs & -> & Hr)].
    + exists b, rs, (a ++ [op]). split_and!; [by rewrite <- app_assoc|done|].
      apply Forall_app; auto.
    + exists h, rs, []. auto.
Qed.
Lemma is_known_snoc h op id :
  is_known (h ++ [op]) id ↔
  (is_known h id ∧ match op with OpLeaveAll id' _ => id' ≠ id | _ => True end) ∨ (∃ rs, op = OpJoin id rs).
Proof.
  split.
  - intros (b & rs & a & H & Hf). destruct a as [|x a _] using rev_ind.
    + apply app_inj_tail in H as [-> ->]. right. eauto.
    + rewrite app_comm_cons, app_assoc in H. apply app_inj_tail in H as [-> ->].
      apply Forall_app in Hf as [Hf1 Hf2]. left. split; [|by inversion Hf2]. exists b, rs, a. done.
  - intros [[(b & rs & a & -> & Hf) Hn]|(rs & ->)].
    + exists b, rs, (a ++ [op]). split_and!; [by rewrite <- app_assoc|]. apply Forall_app; auto.
    + exists h, rs, []. auto.
Qed.

Lemma run_ops_members rep h id r : Forall op_ok h → id ∈ members_of (run_ops rep h).1 r ↔ is_member h id r.
Proof.
  revert id r. induction h as [|op h IH] using rev_ind; intros id r H.
  { split; [|by intros ?%is_member_nil]. unfold members_of; simpl. rewrite lookup_empty. simpl. set_solver. }
  apply Forall_app in H as [H1 H2]. pose proof (run_ops_inv rep h H1) as Hi.
  assert (op_ok op) as Hop by by inversion H2.
  rewrite run_ops_snoc, is_member_snoc. simpl. destruct op as [id' rs|id' r'|id' o]; simpl.
  - rewrite add_all_members, IH by done. naive_solver.
  - rewrite del_members, IH by done. naive_solver.
  - rewrite del_all_members, IH by done. naive_solver.
Qed.
Lemma run_ops_known rep h id : Forall op_ok h → is_Some (rg_sids (run_ops rep h).1 !! id) ↔ is_known h id.
Proof.
  revert id. induction h as [|op h IH] using rev_ind; intros id H.
  { simpl. rewrite lookup_empty, is_Some_alt. split; [done|]. intros (b & rs & a & Hh & _). by destruct b. }
  apply Forall_app in H as [H1 H2].
  rewrite run_ops_snoc, is_known_snoc. simpl. destruct op as [id' rs|id' r'|id' o]; simpl.
  - rewrite add_all_known, IH by done. naive_solver.
  - rewrite del_known, IH by done. naive_solver.
  - rewrite del_all_known, IH by done. naive_solver.
Qed.
Lemma inv_listed g r : reg_inv g → is_Some (rg_rooms g !! r) ↔ ∃ id, id ∈ members_of g r.
Proof.
  intros [_ Hne]. unfold members_of. split.
  - intros [ids E]. rewrite E. simpl. apply set_choose_L. by eapply Hne.
  - destruct (rg_rooms g !! r); simpl; [eauto|set_solver].
Qed.

Lemma membership_relation rep h : Forall op_ok h →
  let g := (run_ops rep h).1 in
  (∀ id r, r ∈ rooms_of g id ↔ is_member h id r) ∧
  (∀ id r, id ∈ members_of g r ↔ is_member h id r) ∧
  (∀ r, is_Some (rg_rooms g !! r) ↔ ∃ id, is_member h id r) ∧
  (∀ id, is_Some (rg_sids g !! id) ↔ is_known h id).
Proof.
  intros H g. pose proof (run_ops_inv rep h H) as Hi. split_and!.
  - intros. destruct Hi as [Hi _]. subst g. rewrite <- Hi. by apply run_ops_members.
  - intros. by apply run_ops_members.
  - intros r. unfold g. rewrite inv_listed by done. by setoid_rewrite run_ops_members.
  - intros. by apply run_ops_known.
Qed.

(** ** Events *)
Lemma replay_app m l1 l2 : replay m (l1 ++ l2) = m' ← replay m l1; replay m' l2.
Proof. revert m. induction l1 as [|e l1 IH]; intros m; simpl; [done|]. destruct (replay1 m e); simpl; auto. Qed.

Lemma add_one_replay id g log r :
  ∃ l, (add_one id (g, log) r).2 = log ++ l ∧ replay (rg_rooms g) l = Some (rg_rooms (add_one id (g, log) r).1).
Proof.
  unfold add_one. destruct (rg_rooms g !! r) as [ids|] eqn:Hr; simpl.
  - case_decide; simpl.
    + exists []. rewrite app_nil_r. simpl. by rewrite insert_id.
    + exists [JoinRoom r id]. split; [done|]. simpl. rewrite Hr. simpl. by rewrite ?decide_False.
  - case_decide; [set_solver|]. simpl. exists [CreateRoom r; JoinRoom r id].
    split; [by rewrite <- app_assoc|]. simpl. rewrite Hr. simpl.
    rewrite lookup_insert. simpl. rewrite ?decide_False by done. simpl. by rewrite insert_insert.
Qed.
Lemma add_loop_replay id rs g log :
  ∃ l, (foldl (add_one id) (g, log) rs).2 = log ++ l ∧ replay (rg_rooms g) l = Some (rg_rooms (foldl (add_one id) (g, log) rs).1).
Proof.
  revert g log. induction rs as [|r rs IH]; intros g log; cbn [foldl].
  { exists []. by rewrite app_nil_r. }
  destruct (add_one_replay id g log r) as (l1 & E1 & R1).
  destruct (add_one id (g, log) r) as [g' log']. simpl in *. subst log'.
  destruct (IH g' (log ++ l1)) as (l2 & E2 & R2). exists (l1 ++ l2).
  rewrite E2, app_assoc. split; [done|]. rewrite replay_app, R1. done.
Qed.
Lemma del_from_room_replay r id g :
  (∀ r ids, rg_rooms g !! r = Some ids → ids ≠ ∅) →
  replay (rg_rooms g) (del_from_room true r id g).2 = Some (rg_rooms (del_from_room true r id g).1).
Proof.
  intros Hne. unfold del_from_room. destruct (rg_rooms g !! r) as [ids|] eqn:Hr; simpl; [|done].
  unfold delete_result. destruct (bool_decide (id ∈ ids)) eqn:Hb.
  - apply bool_decide_eq_true in Hb. case_decide as Hsz; simpl; rewrite Hr; simpl; rewrite ?decide_True by done; simpl.
    + rewrite lookup_insert. apply size_empty_inv in Hsz. rewrite decide_True by set_solver.
      simpl. by rewrite delete_insert_delete.
    + done.
  - apply bool_decide_eq_false in Hb. case_decide as Hsz; simpl.
    + apply size_empty_inv in Hsz. exfalso. apply (Hne _ _ Hr). set_solver.
    + assert (ids ∖ {[id]} = ids) as -> by set_solver. by rewrite insert_id.
Qed.
Lemma del_rooms_replay id rs g :
  (∀ r ids, rg_rooms g !! r = Some ids → ids ≠ ∅) →
  replay (rg_rooms g) (del_rooms true id rs g).2 = Some (rg_rooms (del_rooms true id rs g).1).
Proof.
  revert g; induction rs as [|r rs IH]; intros g H; [done|].
  rewrite del_rooms_cons; simpl. rewrite replay_app, del_from_room_replay by done. simpl.
  apply IH. by apply del_from_room_nonempty.
Qed.
Lemma run_op_replay op g : op_ok op → reg_inv g →
  replay (rg_rooms g) (run_op true op g).2 = Some (rg_rooms (run_op true op g).1).
Proof.
  intros Hop Hi. destruct op as [id rs|id r|id o]; simpl.
  - unfold add_all. edestruct (add_loop_replay id rs) as (l & E & R). rewrite E. simpl. exact R.
  - unfold del. by rewrite <- del_from_room_replay by apply Hi.
  - unfold del_all. destruct (rg_sids g !! id) as [rs|]; [|done].
    pose proof (del_rooms_replay id (o rs) g ltac:(apply Hi)) as R. destruct (del_rooms _ _ _ _). done.
Qed.
Lemma run_ops_replay h : Forall op_ok h → replay ∅ (run_ops true h).2 = Some (rg_rooms (run_ops true h).1).
Proof.
  induction h as [|op h IH] using rev_ind; intros H; [done|].
  apply Forall_app in H as [H1 H2]. rewrite run_ops_snoc. simpl. rewrite replay_app, IH by done. simpl.
  apply run_op_replay; [by inversion H2|by apply run_ops_inv].
Qed.

(** ** Target selection *)
Lemma except_sids_elem g ex id :
  id ∈ except_sids g ex ↔ ∃ r, r ∈ default ∅ ex ∧ id ∈ members_of g r.
Proof.
  destruct ex as [ex|]; simpl; [|set_solver].
  revert id. apply (set_fold_ind_L (λ b X, ∀ id, id ∈ b ↔ ∃ r, r ∈ X ∧ id ∈ members_of g r)); [set_solver|].
  intros r X b Hr IH id. rewrite elem_of_union, IH. set_solver.
Qed.

Section apply_facts.
  Context {S A : Type}.
  Context (get_reg : S → registry) (sockets : S → gmap sid A) (cb : A → S → S).
  (** [agree X s s']: [s'] differs from [s] only on sockets of [X]. *)
  Definition agree (X : sid → Prop) (s s' : S) : Prop :=
    (∀ id r, ¬ X id → (id ∈ members_of (get_reg s') r ↔ id ∈ members_of (get_reg s) r)) ∧
    (∀ id, ¬ X id → sockets s' !! id = sockets s !! id).
  (** The callback invoked for socket [id] touches nothing of the other sockets,
      in the states satisfying [I], which it preserves. *)
  Context (I : S → Prop).
  Definition local_cb : Prop :=
    ∀ s id sock, I s → sockets s !! id = Some sock → agree (λ x, x = id) s (cb sock s) ∧ I (cb sock s).

  Context (Hloc : local_cb).

  Lemma agree_refl X s : agree X s s.
  Proof. split; done. Qed.
  Lemma agree_trans X Y s1 s2 s3 : agree X s1 s2 → agree Y s2 s3 → agree (λ x, X x ∨ Y x) s1 s3.
  Proof.
    intros [A1 A2] [B1 B2]. split.
    - intros id r Hn. rewrite B1, A1 by tauto. done.
    - intros id Hn. rewrite B2, A2 by tauto. done.
  Qed.
  Lemma agree_weaken (X Y : sid → Prop) s1 s2 : (∀ x, X x → Y x) → agree X s1 s2 → agree Y s1 s2.
  Proof. intros H [A1 A2]. split; intros; [apply A1|apply A2]; auto. Qed.

  Ltac fset := repeat match goal with
    | H : context [agree] |- _ => clear H
    | H : context [foldl] |- _ => clear H
    | H : order_ok _ |- _ => clear H
    | H : ∀ r, order_ok _ |- _ => clear H
    | H : local_cb |- _ => clear H
    end; set_solver.
  Lemma visit_ids_spec ex ids s0 s seen :
    NoDup seen → agree (λ x, x ∈ seen) s0 s → I s →
    let r := foldl (visit_id sockets cb ex) (s, seen) ids in
    NoDup r.2 ∧ I r.1 ∧ agree (λ x, x ∈ r.2) s0 r.1 ∧
    (∀ id, id ∈ r.2 ↔ id ∈ seen ∨ (id ∈ ids ∧ id ∉ ex ∧ is_Some (sockets s0 !! id))).
  Proof.
    revert s seen. induction ids as [|id ids IH]; intros s seen Hnd Hag HI; simpl.
    { split_and!; [done|done|done|fset]. }
    destruct (decide (id ∈ seen ∨ id ∈ ex)) as [Hd|Hd].
    { destruct (IH s seen Hnd Hag HI) as (I1 & I0 & I2 & I3). split_and!; [done|done|done|].
      intros id'. rewrite I3. fset. }
    destruct (sockets s !! id) as [sock|] eqn:Es.
    - assert (sockets s0 !! id = Some sock) as E0.
      { destruct Hag as [_ H2]. rewrite <- H2; [done|tauto]. }
      destruct (IH (cb sock s) (seen ++ [id])) as (I1 & I0 & I2 & I3).
      { apply NoDup_app. split_and!; [done|fset|apply NoDup_singleton]. }
      { eapply agree_weaken; [|eapply agree_trans; [exact Hag|apply (Hloc s id sock HI Es)]].
        simpl. intros x. fset. }
      { by apply (Hloc s id sock HI Es). }
      split_and!; [done|done|done|]. intros id'. rewrite I3. split.
      + rewrite elem_of_app, elem_of_list_singleton. intros [[?| ->]|?]; [by left| |right; fset].
        right. split_and!; [fset|tauto|eauto].
      + intros [?|(Hin & He & Hs)]; [left; fset|].
        apply elem_of_cons in Hin as [->|Hin]; [left; fset|right; done].
    - destruct (IH s seen Hnd Hag HI) as (I1 & I0 & I2 & I3). split_and!; [done|done|done|].
      intros id'. rewrite I3. split; [fset|]. intros [?|(Hin & He & Hs)]; [by left|].
      apply elem_of_cons in Hin as [->|Hin]; [|right; done].
      destruct Hag as [_ H2]. rewrite <- H2, Es in Hs by tauto. by destruct Hs.
  Qed.

  Lemma visit_room_eq oid ex s seen r :
    visit_room get_reg sockets cb oid ex (s, seen) r =
    match rg_rooms (get_reg s) !! r with
    | Some ids => foldl (visit_id sockets cb ex) (s, seen) (oid r ids)
    | None => (s, seen)
    end.
  Proof. done. Qed.

  Lemma visit_rooms_spec oid ex rs s0 s seen :
    (∀ r, order_ok (oid r)) → NoDup seen → agree (λ x, x ∈ seen) s0 s → I s →
    let r := foldl (visit_room get_reg sockets cb oid ex) (s, seen) rs in
    NoDup r.2 ∧ I r.1 ∧ agree (λ x, x ∈ r.2) s0 r.1 ∧
    (∀ id, id ∈ r.2 ↔ id ∈ seen ∨ ((∃ r, r ∈ rs ∧ id ∈ members_of (get_reg s0) r) ∧ id ∉ ex ∧ is_Some (sockets s0 !! id))).
  Proof.
    intros Hoid. revert s seen. induction rs as [|r rs IH]; intros s seen Hnd Hag HI; cbn [foldl].
    { split_and!; [done|done|done|fset]. }
    rewrite (visit_room_eq oid ex s seen r). destruct (rg_rooms (get_reg s) !! r) as [ids|] eqn:Er.
    - destruct (visit_ids_spec ex (oid r ids) s0 s seen Hnd Hag HI) as (I1 & I0 & I2 & I3).
      destruct (foldl (visit_id sockets cb ex) (s, seen) (oid r ids)) as [s' seen'] eqn:E. simpl in *.
      destruct (IH s' seen' I1 I2 I0) as (J1 & J0 & J2 & J3). split_and!; [done|done|done|].
      intros id. rewrite J3, I3. rewrite order_elem by done.
      assert (id ∉ seen → id ∈ ids ↔ id ∈ members_of (get_reg s0) r) as Hm.
      { intros Hn. destruct Hag as [H1 _]. rewrite <- H1 by done. unfold members_of. by rewrite Er. }
      destruct (decide (id ∈ seen)) as [Hs|Hs]; [naive_solver|]. rewrite (Hm Hs). fset.
    - destruct (IH s seen Hnd Hag HI) as (J1 & J0 & J2 & J3). split_and!; [done|done|done|].
      intros id. rewrite J3. split; [fset|].
      intros [?|((r' & Hr' & Hm) & He & Hs)]; [by left|].
      destruct (decide (id ∈ seen)); [by left|right]. split_and!; [|done|done].
      apply elem_of_cons in Hr' as [->|Hr']; [|eauto].
      destruct Hag as [H1 _]. rewrite <- H1 in Hm by done. unfold members_of in Hm. rewrite Er in Hm. fset.
  Qed.

  Lemma visit_all_spec ex ids s0 s seen :
    NoDup ids → NoDup seen → (∀ id, id ∈ seen → id ∉ ids) → agree (λ x, x ∈ seen) s0 s → I s →
    let r := foldl (visit_all sockets cb ex) (s, seen) ids in
    NoDup r.2 ∧ I r.1 ∧ agree (λ x, x ∈ r.2) s0 r.1 ∧
    (∀ id, id ∈ r.2 ↔ id ∈ seen ∨ (id ∈ ids ∧ id ∉ ex ∧ is_Some (sockets s0 !! id))).
  Proof.
    revert s seen. induction ids as [|id ids IH]; intros s seen Hids Hnd Hdj Hag HI; simpl.
    { split_and!; [done|done|done|fset]. }
    apply NoDup_cons in Hids as [Hni Hids].
    assert (id ∉ seen) as Hns by (intros ?; eapply Hdj; [done|fset]).
    destruct (decide (id ∈ ex)) as [Hd|Hd].
    { destruct (IH s seen Hids Hnd ltac:(fset) Hag HI) as (I1 & I0 & I2 & I3). split_and!; [done|done|done|].
      intros id'. rewrite I3. fset. }
    destruct (sockets s !! id) as [sock|] eqn:Es.
    - assert (sockets s0 !! id = Some sock) as E0.
      { destruct Hag as [_ H2]. rewrite <- H2; [done|tauto]. }
      destruct (IH (cb sock s) (seen ++ [id])) as (I1 & I0 & I2 & I3).
      { done. }
      { apply NoDup_app. split_and!; [done|fset|apply NoDup_singleton]. }
      { intros id'. rewrite elem_of_app, elem_of_list_singleton. fset. }
      { eapply agree_weaken; [|eapply agree_trans; [exact Hag|apply (Hloc s id sock HI Es)]].
        simpl. intros x. fset. }
      { by apply (Hloc s id sock HI Es). }
      split_and!; [done|done|done|]. intros id'. rewrite I3. split.
      + rewrite elem_of_app, elem_of_list_singleton. intros [[?| ->]|?]; [by left| |right; fset].
        right. split_and!; [fset|tauto|eauto].
      + intros [?|(Hin & He & Hs)]; [left; fset|].
        apply elem_of_cons in Hin as [->|Hin]; [left; fset|right; done].
    - destruct (IH s seen Hids Hnd ltac:(fset) Hag HI) as (I1 & I0 & I2 & I3). split_and!; [done|done|done|].
      intros id'. rewrite I3. split; [fset|]. intros [?|(Hin & He & Hs)]; [by left|].
      apply elem_of_cons in Hin as [->|Hin]; [|right; done].
      destruct Hag as [_ H2]. rewrite <- H2, Es in Hs by tauto. by destruct Hs.
  Qed.

  (** The sockets visited are a duplicate-free enumeration of those selected in
      the state in which the call started, whatever the iteration orders. *)
  Lemma apply_spec orm oid oall rooms except s :
    order_ok orm → (∀ r, order_ok (oid r)) → order_ok oall → I s →
    let res := apply_sockets get_reg sockets cb orm oid oall rooms except s in
    NoDup res.2 ∧ I res.1 ∧ agree (λ x, x ∈ res.2) s res.1 ∧
    (∀ id, id ∈ res.2 ↔ selected (get_reg s) (default ∅ rooms) (default ∅ except) id ∧ is_Some (sockets s !! id)).
  Proof.
    intros Horm Hoid Hoall HI. unfold apply_sockets.
    set (ex := except_sids (get_reg s) except).
    assert (∀ id, id ∉ ex ↔ ¬ ∃ r, r ∈ default ∅ except ∧ id ∈ members_of (get_reg s) r) as Hex.
    { intros id. unfold ex. by rewrite except_sids_elem. }
    assert (let res := foldl (visit_all sockets cb ex) (s, []) (oall (dom (rg_sids (get_reg s)))) in
      NoDup res.2 ∧ I res.1 ∧ agree (λ x, x ∈ res.2) s res.1 ∧
      (∀ id, id ∈ res.2 ↔ selected (get_reg s) ∅ (default ∅ except) id ∧ is_Some (sockets s !! id))) as Hall.
    { destruct (visit_all_spec ex (oall (dom (rg_sids (get_reg s)))) s s []) as (I1 & I0 & I2 & I3).
      { by apply order_NoDup. } { constructor. } { set_solver. } { apply agree_refl. } { done. }
      cbv zeta. split_and!; [done|done|done|]. intros id. rewrite I3. unfold selected. rewrite decide_True by done.
      rewrite order_elem, elem_of_dom, Hex by done. set_solver. }
    destruct rooms as [rs|]; simpl; [|exact Hall].
    case_decide as Hsz.
    - assert (rs ≠ ∅) as Hrs by (intros ->; rewrite size_empty in Hsz; lia).
      destruct (visit_rooms_spec oid ex (orm rs) s s []) as (I1 & I0 & I2 & I3).
      { done. } { constructor. } { apply agree_refl. } { done. }
      split_and!; [done|done|done|]. intros id. rewrite I3. unfold selected. rewrite decide_False by done.
      rewrite Hex. setoid_rewrite order_elem; [|done]. set_solver.
    - assert (rs = ∅) as ->; [|exact Hall].
      apply leibniz_equiv, size_empty_inv. lia.
  Qed.

  (** The final state is the composition of the callbacks in visiting order. *)
  Fixpoint run_cbs (l : list sid) (s : S) : S :=
    match l with
    | [] => s
    | id :: l => run_cbs l (match sockets s !! id with Some a => cb a s | None => s end)
    end.
  Lemma run_cbs_snoc l id s :
    run_cbs (l ++ [id]) s = match sockets (run_cbs l s) !! id with Some a => cb a (run_cbs l s) | None => run_cbs l s end.
  Proof. revert s. induction l as [|x l IH]; intros s; simpl; [done|]. by rewrite IH. Qed.
  Lemma visit_id_cbs ex ids s0 s seen :
    s = run_cbs seen s0 →
    (foldl (visit_id sockets cb ex) (s, seen) ids).1 = run_cbs (foldl (visit_id sockets cb ex) (s, seen) ids).2 s0.
  Proof.
    revert s seen. induction ids as [|id ids IH]; intros s seen E; simpl; [done|].
    case_decide; [by apply IH|]. destruct (sockets s !! id) eqn:Es; [|by apply IH].
    apply IH. rewrite run_cbs_snoc, <- E, Es. done.
  Qed.
  Lemma apply_cbs orm oid oall rooms except s :
    let res := apply_sockets get_reg sockets cb orm oid oall rooms except s in
    res.1 = run_cbs res.2 s.
  Proof.
    unfold apply_sockets. set (ex := except_sids (get_reg s) except).
    assert (∀ ids s1 seen, s1 = run_cbs seen s →
      (foldl (visit_all sockets cb ex) (s1, seen) ids).1 = run_cbs (foldl (visit_all sockets cb ex) (s1, seen) ids).2 s) as Hall.
    { intros ids. induction ids as [|id ids IH]; intros s1 seen E; simpl; [done|].
      case_decide; [by apply IH|]. destruct (sockets s1 !! id) eqn:Es; [|by apply IH].
      apply IH. rewrite run_cbs_snoc, <- E, Es. done. }
    assert (∀ rs s1 seen, s1 = run_cbs seen s →
      (foldl (visit_room get_reg sockets cb oid ex) (s1, seen) rs).1
      = run_cbs (foldl (visit_room get_reg sockets cb oid ex) (s1, seen) rs).2 s) as Hrooms.
    { intros rs. induction rs as [|r rs IH]; intros s1 seen E; [done|]. cbn [foldl].
      rewrite (visit_room_eq oid ex s1 seen r). destruct (rg_rooms (get_reg s1) !! r) as [ids|]; [|by apply IH].
      pose proof (visit_id_cbs ex (oid r ids) s s1 seen E) as E'.
      destruct (foldl (visit_id sockets cb ex) (s1, seen) (oid r ids)) as [s2 seen2]. by apply IH. }
    destruct rooms as [rs|]; [case_decide|]; auto.
  Qed.
End apply_facts.
