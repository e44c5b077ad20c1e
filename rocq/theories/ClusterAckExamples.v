(** Examples for the properties of [PropsClusterAck.v]. *)
From Verif Require Import Base GoTypes Rooms Adapter AdapterSpec Cluster ClusterSpec ClusterExamples BcastAck BcastAckSpec ClusterAck ClusterAckSpec.

(** Two servers; a1, b1, b2 and b3 are in room r, a2 is not. *)
Definition ak_uids : gset string := {["A"; "B"]}.
Definition ak_setup : list aop :=
  [ALocal "A" (LOpen "a1"); ALocal "A" (LJoin "a1" ["r"]); ALocal "A" (LOpen "a2");
   ALocal "B" (LOpen "b1"); ALocal "B" (LJoin "b1" ["r"]); ALocal "B" (LOpen "b2"); ALocal "B" (LJoin "b2" ["r"]); ALocal "B" (LOpen "b3"); ALocal "B" (LJoin "b3" ["r"])].
Definition ak_to (loc : bool) : option bopts := Some (BOpts (Some {["r"]}) (Some {["b3"]}) (Some (Flags false false false loc false false None false))).
Definition ak_call (loc : bool) : aop := ACall "A" "q" (ak_to loc) true true ord_std ord_std orders_std.
(** The request is delivered to B and to its sender. *)
Definition ak_ask : list aop := [ADeliver 0 orders_std; ADeliver 0 orders_std].
(** An answer of B overtakes its number of clients. *)
Definition ak_rest : list aop :=
  [AClient "A" "a1" 0 [VStr "x"]; AClient "B" "b1" 0 [VStr "y"]; ADeliver 1 orders_std; ADeliver 0 orders_std; AClient "B" "b2" 0 [VStr "z"]; ADeliver 0 orders_std].
Definition ak_h : list aop := ak_setup ++ ak_call false :: ak_ask ++ ak_rest.
(** The request expires before the last answer arrives. *)
Definition ak_late : list aop := ak_setup ++ ak_call false :: ak_ask ++ take 5 ak_rest ++ [AExpire "A" "q"; ADeliver 0 orders_std].

Lemma ak_orders : orders_ok orders_std.
Proof. repeat split; intros; apply ord_std_ok. Qed.
Lemma ak_ok h : (∀ op, op ∈ h → op ∈ ak_setup ∨ op = ak_call false ∨ op = ak_call true ∨ op ∈ ak_ask ∨ op ∈ ak_rest ∨ op = AExpire "A" "q") → Forall (aop_ok ak_uids) h.
Proof.
  intros H. apply Forall_forall. intros op Hop. apply H in Hop as [Hop|[->|[->|[Hop|[Hop| ->]]]]].
  - unfold ak_setup in Hop. repeat (apply elem_of_cons in Hop as [->|Hop]; [done|]). by apply elem_of_nil in Hop.
  - split_and!; [by vm_compute|apply ord_std_ok|apply ord_std_ok|apply ak_orders].
  - split_and!; [by vm_compute|apply ord_std_ok|apply ord_std_ok|apply ak_orders].
  - unfold ak_ask in Hop. repeat (apply elem_of_cons in Hop as [->|Hop]; [apply ak_orders|]). by apply elem_of_nil in Hop.
  - unfold ak_rest in Hop. repeat (apply elem_of_cons in Hop as [->|Hop]; [first [apply ak_orders|done]|]). by apply elem_of_nil in Hop.
  - done.
Qed.
Definition is_acall (op : aop) : bool := match op with ACall _ _ _ _ _ _ _ _ => true | _ => false end.
Lemma rids_single h1 op h2 : Forall (λ x, is_acall x = false) (h1 ++ h2) → rids_ok (h1 ++ op :: h2).
Proof.
  intros [H1 H2]%Forall_app. assert (∀ i n rid o p c a b r, (h1 ++ op :: h2) !! i = Some (ACall n rid o p c a b r) → i = length h1) as Hone.
  { intros i n rid o p c a b r [H|[Hl H]]%lookup_app_Some; [eapply Forall_lookup_1 in H1; [|exact H]; done|].
    destruct (i - length h1) as [|x] eqn:E; [lia|]. cbn in H. eapply Forall_lookup_1 in H2; [|exact H]. done. }
  intros i j n rid ? ? ? ? ? ? ? ? ? ? ? ? Hi%Hone Hj%Hone. congruence.
Qed.
Lemma ak_h_ok : Forall (aop_ok ak_uids) ak_h ∧ rids_ok ak_h.
Proof.
  split; [|apply rids_single; unfold ak_setup, ak_ask, ak_rest; cbn; repeat constructor]. apply ak_ok. intros op. unfold ak_h. rewrite elem_of_app, elem_of_cons, elem_of_app. tauto.
Qed.
Lemma ak_late_ok : Forall (aop_ok ak_uids) ak_late ∧ rids_ok ak_late.
Proof.
  split; [|apply rids_single; unfold ak_setup, ak_ask, ak_rest; cbn; repeat constructor]. apply ak_ok. intros op. unfold ak_late. rewrite elem_of_app, elem_of_cons, !elem_of_app.
  intros [H|[H|[H|[H|H]]]]; try tauto. { right; right; right; right; left. by eapply elem_of_list_lookup in H as [i [Hi _]%lookup_take_Some]; eapply elem_of_list_lookup_2. }
  apply elem_of_cons in H as [->|H]; [tauto|]. right; right; right; left. apply elem_of_list_singleton in H as ->. by left.
Qed.
