(** Property C61: calls that do not overlap compute the functions of the sequential models. *)
From Verif Require Import Base GoTypes Rooms RoomsConc Session SessionConc AloneSpec AloneProofs.

(** ** C61 Undisturbed calls have the effect of the sequential functions
    The calls of AddAll, Del and DelAll made in turn, each running to its end before the next one begins, leave the tables that the
    functions of Rooms.v give (of which C01-C05 speak). *)
Theorem C61_rooms : ∀ (o : order) (g : registry) (ts : list rcall) (blocks : list (nat * nat)), NoDup blocks.*1 →
  all_returned (rc_run o g ts (one_by_one blocks)) blocks.*1 →
  contents (rc_run o g ts (one_by_one blocks)).1 = in_turn o (omap (λ i, ts !! i) blocks.*1) g.
Proof. exact rooms_one_by_one. Qed.
Print Assumptions C61_rooms.
(** Made in any turn, each of them returns. *)
Theorem C61_rooms_end : ∀ (o : order) (g : registry) (ts : list rcall) (is : list nat), NoDup is → Forall (λ i, i < length ts) is →
  ∃ blocks, blocks.*1 = is ∧ all_returned (rc_run o g ts (one_by_one blocks)) is.
Proof. exact rooms_each_ends. Qed.
Print Assumptions C61_rooms_end.
(** Broadcasts, saved sessions, restorations and cleanups made in turn leave the store that the functions of Session.v give (of which
    C27-C33 speak), and hand over the same packets in the same order. *)
Theorem C61_store : ∀ (max : Z) (ses : gmap string (session * Z)) (ps : list spacket) (ts : list qthread) (blocks : list ((nat * Z) * nat)),
  NoDup ((λ b, b.1.1) <$> blocks) → Forall untouched_call ts → visits_all ses ts →
  all_ended (qrun max (qinit ses ps ts) (one_by_one blocks)) ((λ b, b.1.1) <$> blocks) →
  state_store max (qrun max (qinit ses ps ts) (one_by_one blocks)) = store_after (Store max ses ps) (calls_of ts blocks) ∧
  q_sent (qrun max (qinit ses ps ts) (one_by_one blocks)) = handed (Store max ses ps) (calls_of ts blocks).
Proof. exact store_one_by_one. Qed.
Print Assumptions C61_store.
(** Each restoration returns what RestoreSession of Session.v returns on the store that the calls before it left. *)
Theorem C61_restore : ∀ (max : Z) (ses : gmap string (session * Z)) (ps : list spacket) (ts : list qthread) (b1 b2 : list ((nat * Z) * nat))
    (i : nat) (now : Z) (n : nat) (o : order) (pid off : string),
  let blocks := b1 ++ ((i, now), n) :: b2 in NoDup ((λ b, b.1.1) <$> blocks) → Forall untouched_call ts → visits_all ses ts →
  all_ended (qrun max (qinit ses ps ts) (one_by_one blocks)) ((λ b, b.1.1) <$> blocks) → ts !! i = Some (QRestore o pid off QR0) →
  q_threads (qrun max (qinit ses ps ts) (one_by_one blocks)) !! i =
    Some (QRestore o pid off (QRdone (restore o now pid off (store_after (Store max ses ps) (calls_of ts b1))).2)).
Proof. exact store_restores. Qed.
Print Assumptions C61_restore.
Theorem C61_store_end : ∀ (max : Z) (ses : gmap string (session * Z)) (ps : list spacket) (ts : list qthread) (calls : list (nat * Z)),
  NoDup calls.*1 → Forall (λ i, i < length ts) calls.*1 → Forall untouched_call ts → visits_all ses ts →
  ∃ blocks, blocks.*1 = calls ∧ all_ended (qrun max (qinit ses ps ts) (one_by_one blocks)) calls.*1.
Proof. exact store_each_ends. Qed.
Print Assumptions C61_store_end.

(** Two sockets join rooms, one leaves a room, the other all of them; made in the order 1, 0, 2, 3. *)
Definition rts : list rcall := [RcAdd "a" ["r"; "q"]; RcAdd "b" ["r"]; RcDel "a" "r"; RcDelAll "b"].
Definition rblocks : list (nat * nat) := [(1, 7); (0, 10); (2, 9); (3, 9)].
Example C61_rooms_example :
  NoDup rblocks.*1 ∧ all_returned (rc_run ord_rev empty_registry rts (one_by_one rblocks)) rblocks.*1 ∧
  map_to_list (elements <$> rg_rooms (in_turn ord_rev (omap (λ i, rts !! i) rblocks.*1) empty_registry)) = [("q", ["a"])] ∧
  map_to_list (elements <$> rg_sids (in_turn ord_rev (omap (λ i, rts !! i) rblocks.*1) empty_registry)) = [("a", ["q"])].
Proof.
  split_and!; [by_eval| |vm_compute; reflexivity..].
  repeat constructor; [exists (RcAdd "b" ["r"])|exists (RcAdd "a" ["r"; "q"])|exists (RcDel "a" "r")|exists (RcDelAll "b")]; vm_compute; reflexivity.
Qed.
(** Two broadcasts, a session saved between them, restored with the second packet, and a cleanup that keeps what is recent. *)
Definition qs : session := Session "s" "p" {["r"]} VNil.
Definition qev (d : string) : bcast := Bcast EVENT false [VStr d] (Some (BOpts (Some {["r"]}) (Some ∅) None)).
Definition qts : list qthread :=
  [QBcast "1" (qev "x") QB0; QPersist qs QP0; QBcast "2" (qev "y") QB0; QRestore ord_std "p" "1" QR0; QCleanup ["p"] QC0].
Definition qblocks : list ((nat * Z) * nat) := [((0, 1%Z), 3); ((1, 2%Z), 2); ((2, 30%Z), 4); ((3, 40%Z), 9); ((4, 60%Z), 6)].
Example C61_store_example :
  NoDup ((λ b, b.1.1) <$> qblocks) ∧ Forall untouched_call qts ∧ visits_all ∅ qts ∧
  all_ended (qrun 50 (qinit ∅ [] qts) (one_by_one qblocks)) ((λ b, b.1.1) <$> qblocks) ∧
  st_packets (store_after (Store 50 ∅ []) (calls_of qts qblocks)) = [SPacket "2" 30 [VStr "y"; VStr "2"] (bc_opts (qev "y"))] ∧
  (restore ord_std 40 "p" "1" (store_after (Store 50 ∅ []) (calls_of qts (take 3 qblocks)))).2 = RSession qs [[VStr "y"; VStr "2"]].
Proof.
  split_and!.
  - by_eval.
  - repeat constructor.
  - intros ks pc pid Hin Hp.
    assert (ks = ["p"]) as -> by (repeat (apply elem_of_cons in Hin as [Hin|Hin]; [congruence|]); by apply elem_of_nil in Hin).
    destruct Hp as [[y Hy]|(x & pc' & Hx & <-)]; [by rewrite lookup_empty in Hy|].
    assert (x = qs) as -> by (repeat (apply elem_of_cons in Hx as [Hx|Hx]; [congruence|]); by apply elem_of_nil in Hx). left.
  - repeat constructor; eexists; (split; [vm_compute; reflexivity|]); cbn; eauto.
  - vm_compute. reflexivity.
  - vm_compute. reflexivity.
Qed.
