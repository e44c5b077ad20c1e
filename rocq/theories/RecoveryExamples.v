(** A concrete history used by the examples of [PropsRecovery.v]. *)
From Verif Require Import Base GoTypes Rooms Adapter Session SessionSpec Recovery RecoverySpec RecoveryProofs.

Definition bc (x : string) (rs ex : gset room) : bcast := Bcast EVENT false [VStr x] (Some (BOpts (Some rs) (Some ex) None)).
(** A client connects, joins a room, receives a packet, breaks, comes back, is admitted and receives more. *)
Definition trip0 : list (Z * rop) :=
  [(1, RCreate 0 None "i" "p" ord_std ord_std); (2, RFinish 0); (3, RJoin 0 ["r"; "q"]); (4, RSetData 0 (VNum 7))]%Z.
Definition trip1 : list (Z * rop) :=
  [(6, REmit "k2" (bc "live" {["r"]} ∅) orders_std); (7, REmit "k3" (bc "other" {["z"]} ∅) orders_std)]%Z.
Definition trip2 : list (Z * rop) :=
  [(9, REmit "k4" (bc "missed" {["q"]} ∅) orders_std); (10, RCreate 1 None "i2" "p2" ord_std ord_std); (11, REmit "k5" (bc "not for it" ∅ {["r"]}) orders_std)]%Z.
Definition trip3 : list (Z * rop) := [(14, REmit "k6" (bc "after" ∅ ∅) orders_std)]%Z.
Definition trip_gone : list (Z * rop) := (trip0 ++ (5%Z, REmit "k1" (bc "first" ∅ ∅) orders_std) :: trip1) ++ (8%Z, RClose 0 (ByTransport "transport close") ord_rev) :: trip2.
Definition trip_back : list (Z * rop) := trip_gone ++ [(12%Z, RCreate 2 (Some ("p", "k1")) "i3" "p3" ord_std ord_rev)].
Definition trip (hw : list (Z * rop)) : list (Z * rop) := ((trip_back ++ hw) ++ [(13%Z, RFinish 2)]) ++ trip3.

Definition twice : list (Z * rop) := [(12, RCreate 3 (Some ("p", "k1")) "i4" "p4" ord_std ord_std); (12, RFinish 3)]%Z.
Definition left1 : list (Z * rop) := trip0 ++ [(5, REmit "k1" (bc "first" ∅ ∅) orders_std); (5, RLeave 0 "i")]%Z.
Definition left_all : list (Z * rop) := (left1 ++ (8%Z, RClose 0 ByShutdown ord_rev) :: []) ++ [(12, RCreate 2 (Some ("p", "k1")) "i3" "p3" ord_std ord_rev); (13, RFinish 1)]%Z.
Definition lost_all : list (Z * rop) := trip0 ++ [(5, REmit "k1" (bc "first" ∅ ∅) orders_std); (8, RClose 0 ByShutdown ord_rev); (9, REmit "k2" (bc "missed" {["r"]} ∅) orders_std);
  (10, RCreate 2 (Some ("p", "k1")) "i3" "p3" ord_std ord_rev); (11, REmit "k3" (bc "lost" {["r"]} ∅) orders_std); (12, RFinish 1); (13, REmit "k4" (bc "after" {["r"]} ∅) orders_std)]%Z.

Ltac prefixes := let h1 := fresh "h1" in let E := fresh "E" in
  intros h1; intros; match goal with H : _ = h1 ++ _ |- _ => rename H into E end;
  cbv [trip_gone trip_back trip trip0 trip1 trip2 trip3 twice left1 left_all lost_all app] in E;
  repeat (destruct h1 as [|? h1]; [injection E; clear E; intros; subst|injection E; clear E; intros E ?; subst]); try (destruct h1; discriminate); try discriminate.
Ltac heap_ids := intros;
  match goal with Ha : ?a ∈ r_heap ?s |- _ => let l' := eval vm_compute in (r_heap s) in change (a ∈ l') in Ha; rewrite ?elem_of_cons, elem_of_nil in Ha; naive_solver end.
Lemma orders_std_ok' : orders_ok orders_std.
Proof. split_and!; intros; apply ord_std_ok. Qed.
Lemma trip_env : env_ok true 100 (trip []).
Proof.
  split.
  - prefixes; unfold op_env; try done; try (split; [eexists _, _, _; reflexivity|apply orders_std_ok']); try (apply ord_rev_ok).
    all: split; [first [apply ord_std_ok|apply ord_rev_ok]|]; split; [first [apply ord_std_ok|apply ord_rev_ok]|]; heap_ids.
  - change (NoDup ["k1"; "k2"; "k3"; "k4"; "k5"; "k6"]). by_eval.
  - prefixes; match goal with H : _ ∈ _ |- _ => rewrite ?elem_of_cons, elem_of_nil in H; naive_solver lia end.
Qed.
Lemma trip_polite : polite true 100 (trip []).
Proof. prefixes. heap_ids. Qed.
Lemma trip_back_env : env_ok true 100 trip_back.
Proof. unfold trip in *. pose proof trip_env as H. unfold trip in H. rewrite app_nil_r, <- app_assoc in H. by apply env_ok_app in H. Qed.
Lemma trip_back_polite : polite true 100 trip_back.
Proof. pose proof trip_polite as H. unfold trip in H. rewrite app_nil_r, <- app_assoc in H. by apply polite_app in H. Qed.
Definition connected_ids (s : rstate) : list sid := omap (λ a, if rk_connected a then Some (rk_id a) else None) (r_heap s).

(** Another client restores the same session. *)
Ltac check_env := split;
  [prefixes; unfold op_env; try done; try (split; [eexists _, _, _; reflexivity|apply orders_std_ok']); try (apply ord_rev_ok);
    (split; [first [apply ord_std_ok|apply ord_rev_ok]|]; (split; [first [apply ord_std_ok|apply ord_rev_ok]|heap_ids]))
  | |prefixes; match goal with H : _ ∈ _ |- _ => rewrite ?elem_of_cons, elem_of_nil in H; naive_solver lia end].
Lemma twice_env : env_ok true 100 (trip twice).
Proof. check_env. change (NoDup ["k1"; "k2"; "k3"; "k4"; "k5"; "k6"]). by_eval. Qed.

(** The socket leaves the room of its id before the break. *)
Lemma left_env : env_ok true 100 left_all.
Proof. check_env. change (NoDup ["k1"]). by_eval. Qed.
Lemma left_polite : polite true 100 left_all.
Proof. prefixes. heap_ids. Qed.
Lemma own_room : ∃ (max : Z) (h : list (Z * rop)) (h1 h2 : list (Z * rop)) (e : Z * rop) (a : rsock),
  env_ok true max h ∧ polite true max h ∧ last_saved true max (h1 ++ e :: h2) (rk_pid a) h1 e 0 a h2 ∧ (∃ h3, h = (h1 ++ e :: h2) ++ h3) ∧
  rk_id a ∉ rooms_of (r_reg (rrun true max h1)) (rk_id a) ∧
  (∃ k a', r_heap (rrun true max h) !! k = Some a' ∧ rk_recovered a' = true ∧ rk_connected a' = true ∧ rk_id a' = rk_id a) ∧
  rk_id a ∈ rooms_of (r_reg (rrun true max h)) (rk_id a).
Proof.
  exists 100%Z, left_all, left1, [], (8%Z, RClose 0 ByShutdown ord_rev), (RSock "i" "p" 0 (VNum 7) false true true).
  split; [exact left_env|]. split; [exact left_polite|]. split.
  { split; [done|]. split; [|split; [done|intros [] ? ? ? ? ?; discriminate]]. eexists _, _. split; [reflexivity|]. split; [vm_compute; reflexivity|]. split; [done|]. cbn. set_solver. }
  split; [by eexists|]. split; [apply (bool_decide_unpack _); vm_compute; exact I|]. split.
  { eexists 1, _. split; [vm_compute; reflexivity|]. done. }
  apply (bool_decide_unpack _). vm_compute. exact I.
Qed.

(** A broadcast in the window between restoration and admission. *)
Lemma lost_env : env_ok true 100 lost_all.
Proof. check_env. change (NoDup ["k1"; "k2"; "k3"; "k4"]). by_eval. Qed.
Lemma lost_polite : polite true 100 lost_all.
Proof. prefixes. heap_ids. Qed.
Lemma window_lost : ∃ (max : Z) (h : list (Z * rop)) (c : nat) (t : Z) (pk : string) (b : bcast) (a : rsock),
  env_ok true max h ∧ polite true max h ∧ (∃ k, r_heap (rrun true max h) !! k = Some a) ∧ rk_connected a = true ∧ rk_recovered a = true ∧ rk_client a = c ∧
  (∃ os, (t, REmit pk b os) ∈ h) ∧ recoverable b ∧ concerns (rooms_of (r_reg (rrun true max h)) (rk_id a)) b ∧
  (∃ t1 pk1 b1 os1 t2 pk2 b2 os2, (t1, REmit pk1 b1 os1) ∈ h ∧ (t2, REmit pk2 b2 os2) ∈ h ∧ (t1 < t < t2)%Z ∧
    received (rrun true max h) c = [bc_data b1 ++ [VStr pk1]; bc_data b2 ++ [VStr pk2]]) ∧
  (∀ c', bc_data b ++ [VStr pk] ∉ received (rrun true max h) c').
Proof.
  exists 100%Z, lost_all, 2, 11%Z, "k3", (bc "lost" {["r"]} ∅), (RSock "i" "p" 2 (VNum 7) true true true).
  split; [exact lost_env|]. split; [exact lost_polite|]. split; [exists 1; vm_compute; reflexivity|]. split; [done|]. split; [done|]. split; [done|].
  split; [exists orders_std; unfold lost_all, trip0; cbn [app]; rewrite !elem_of_cons; tauto|].
  split; [split; [done|]; split; [done|]; intros ?? [= <-] ?; done|].
  split; [apply (bool_decide_unpack _); vm_compute; exact I|]. split.
  - exists 9%Z, "k2", (bc "missed" {["r"]} ∅), orders_std, 13%Z, "k4", (bc "after" {["r"]} ∅), orders_std.
    split; [unfold lost_all, trip0; cbn [app]; rewrite !elem_of_cons; tauto|]. split; [unfold lost_all, trip0; cbn [app]; rewrite !elem_of_cons; tauto|]. split; [lia|]. vm_compute. reflexivity.
  - intros c' Hin. unfold received in Hin. apply elem_of_list_omap in Hin as ([d w]&Hin&E).
    match type of Hin with _ ∈ ?l => let l' := eval vm_compute in l in change ((d, w) ∈ l') in Hin end. rewrite !elem_of_cons, elem_of_nil in Hin. cbn in E.
    destruct_or!; try done; injection Hin as -> ->; try done; revert E; case_decide; intros E; try done; injection E as E; congruence.
Qed.
