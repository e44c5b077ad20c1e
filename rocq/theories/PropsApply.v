(** Property C57: broadcasts and bulk operations concurrent with joins, leaves and connections. *)
From Verif Require Import Base GoTypes Rooms RoomsConc RoomsConcSpec RoomsConcProofs Adapter AdapterSpec ApplyConc ApplyConcSpec ApplyConcProofs ApplyConcExamples.

(** ** C57 A broadcast concurrent with joins, leaves and connections
    [ac_hits]: the sockets the callback of apply was called with (written to, joined, disconnected...).
    [ls] is any interleaving; [always], [sometime]: during the call. *)
Theorem C57_at_most_once : ∀ (a : acall) (ls : list alabel), acall_ok a → NoDup (ac_hits (after a ls)).
Proof. exact (λ a ls H, at_most_once a H ls). Qed.
Print Assumptions C57_at_most_once.
(** A socket that is listed and in a targeted room all the time, and that is in no excluded room and joins
    none, is reached exactly once, whatever the others do. *)
Theorem C57_reached : ∀ (a : acall) (ls : list alabel) (id : sid), acall_ok a → always a ls (is_listed id) →
  (if decide (al_rooms a = ∅) then always a ls (is_known id) else ∃ r, r ∈ al_rooms a ∧ always a ls (is_member id r)) →
  (∀ e, e ∈ al_except a → ¬ is_member id e (after a []) ∧ ¬ is_joining id e (al_start a)) → finished (after a ls) →
  ∃ l1 l2, ac_hits (after a ls) = l1 ++ id :: l2 ∧ id ∉ l1 ++ l2.
Proof. exact reached. Qed.
Print Assumptions C57_reached.
(** A socket that is in an excluded room all the time is not reached. *)
Theorem C57_excluded : ∀ (a : acall) (ls : list alabel) (id : sid) (e : room), acall_ok a → e ∈ al_except a →
  always a ls (is_member id e) → id ∉ ac_hits (after a ls).
Proof. exact (λ a ls id e H, excluded_missed a H ls id e). Qed.
Print Assumptions C57_excluded.
(** A socket that is reached was listed at some time, in a targeted room at some time or joining it, and out
    of each excluded room at some time. *)
Theorem C57_possible : ∀ (a : acall) (ls : list alabel) (id : sid), acall_ok a → id ∈ ac_hits (after a ls) →
  sometime a ls (is_listed id) ∧
  (if decide (al_rooms a = ∅) then sometime a ls (is_known id) else ∃ r, r ∈ al_rooms a ∧ (sometime a ls (is_member id r) ∨ is_joining id r (al_start a))) ∧
  (∀ e, e ∈ al_except a → sometime a ls (λ c, ¬ is_member id e c)).
Proof. exact possible. Qed.
Print Assumptions C57_possible.
(** Without interference the sockets reached are those that match; they are those of the atomic model. *)
Theorem C57_alone : ∀ (a : acall) (ls : list alabel) (id : sid), acall_ok a → returned (al_start a) → Forall quiet ls → finished (after a ls) →
  id ∈ ac_hits (after a ls) ↔ matching a id (after a []).
Proof. exact alone. Qed.
Print Assumptions C57_alone.
Theorem C57_atomic : ∀ (P : Type) (s : nspace P) (os : orders) (opts : option bopts) (a : acall) (ls : list alabel),
  orders_ok os → ns_wf s → acall_ok a → al_rooms a = opt_rooms opts → al_except a = opt_except opts →
  al_start a = (view_of (ns_reg s), []) → al_socks a = dom (ns_sockets s) → Forall quiet ls → finished (after a ls) →
  ac_hits (after a ls) ≡ₚ fetch_sockets os opts s.
Proof. exact @refines. Qed.
Print Assumptions C57_atomic.

(** A socket is listed iff it connected and did not disconnect since, or was listed at the start and did neither. *)
Theorem C57_listing : ∀ (a : acall) (ls : list alabel) (id : sid),
  ((∀ b, AListed id b ∉ ls) → is_listed id (after a ls) ↔ id ∈ al_socks a) ∧
  ∀ l1 b l2, ls = l1 ++ AListed id b :: l2 → (∀ b', AListed id b' ∉ l2) → is_listed id (after a ls) ↔ b = true.
Proof. exact (λ a ls id, conj (listing_start a ls id) (λ l1 b l2 E H, eq_ind_r (λ l, is_listed id (after a l) ↔ b = true) (listing a l1 b l2 id H) E)). Qed.
Print Assumptions C57_listing.

(** Being in one of the targeted rooms at every time is not enough: a socket that joins a room already
    visited and then leaves the other is missed. *)
Theorem C57_moving_refuted : ∃ (a : acall) (ls : list alabel) (id : sid), acall_ok a ∧ al_except a = ∅ ∧ always a ls (is_listed id) ∧
  always a ls (λ c, ∃ r, r ∈ al_rooms a ∧ is_member id r c) ∧ finished (after a ls) ∧ id ∉ ac_hits (after a ls).
Proof.
  exists mv_call, mv_run, "x". split_and!; [apply ex_call_ok|done|..].
  - apply (always_check mv_call mv_run (λ c, "x" ∈ ac_socks c)). vm_compute. reflexivity.
  - assert (always mv_call mv_run (λ c, is_member "x" "p" c ∨ is_member "x" "q" c)) as H.
    { apply (always_check mv_call mv_run (λ c, is_member "x" "p" c ∨ is_member "x" "q" c)). vm_compute. reflexivity. }
    intros l Hl. destruct (H l Hl); [exists "p"|exists "q"]; (split; [by_eval|done]).
  - apply finished_by. vm_compute. reflexivity.
  - by_eval.
Qed.
Print Assumptions C57_moving_refuted.
(** A socket can be reached that matches at no time: it joins an excluded room after the exclusions were
    computed, then a targeted one. *)
Theorem C57_never_matching_refuted : ∃ (a : acall) (ls : list alabel) (id : sid), acall_ok a ∧ id ∈ ac_hits (after a ls) ∧
  always a ls (λ c, ¬ matching a id c).
Proof.
  exists nm_call, nm_run, "x". split_and!; [apply ex_call_ok|by_eval|].
  assert (always nm_call nm_run (λ c, is_member "x" "p" c → is_member "x" "e" c)) as H.
  { apply (always_check nm_call nm_run (λ c, is_member "x" "p" c → is_member "x" "e" c)). vm_compute. reflexivity. }
  intros l Hl (_ & Hr & He). rewrite decide_False in Hr by (by_eval). destruct Hr as (r & Hr & Hm). cbn in Hr. apply elem_of_singleton in Hr as ->. apply He. exists "e".
  split; [by_eval|by apply (H l Hl)].
Qed.
Print Assumptions C57_never_matching_refuted.
(** ... or that is in no room at any time: its join is lost (C50), but the broadcast sees it. *)
Theorem C57_lost_join_refuted : ∃ (a : acall) (ls : list alabel) (id : sid), acall_ok a ∧ al_rooms a ≠ ∅ ∧ id ∈ ac_hits (after a ls) ∧
  ∀ r, r ∈ al_rooms a → always a ls (λ c, ¬ is_member id r c).
Proof.
  exists dt_call, dt_run, "x". split_and!; [apply ex_call_ok|by_eval|by_eval|]. intros r Hr. cbn in Hr. apply elem_of_singleton in Hr as ->.
  apply (always_check dt_call dt_run (λ c, ¬ is_member "x" "p" c)). vm_compute. reflexivity.
Qed.
Print Assumptions C57_lost_join_refuted.

(** b is reached although c joins, e disconnects and d is excluded, with a room and without. *)
Example C57_example : acall_ok (st_call {["r"]}) ∧ finished (after (st_call {["r"]}) st_run) ∧ ac_hits (after (st_call {["r"]}) st_run) = ["b"; "c"] ∧
  always (st_call {["r"]}) st_run (λ c, "b" ∈ ac_socks c) ∧ always (st_call {["r"]}) st_run (is_member "b" "r") ∧
  always (st_call {["r"]}) st_run (is_member "d" "x") ∧ ¬ is_member "b" "x" (after (st_call {["r"]}) []).
Proof.
  split_and!; [apply ex_call_ok|apply finished_by; vm_compute; reflexivity|vm_compute; reflexivity|..|by_eval].
  - apply (always_check _ _ (λ c, "b" ∈ ac_socks c)). vm_compute. reflexivity.
  - apply (always_check _ _ (is_member "b" "r")). vm_compute. reflexivity.
  - apply (always_check _ _ (is_member "d" "x")). vm_compute. reflexivity.
Qed.
Example C57_example_all : acall_ok (st_call ∅) ∧ finished (after (st_call ∅) st_range) ∧ ac_hits (after (st_call ∅) st_range) = ["c"; "b"] ∧
  always (st_call ∅) st_range (λ c, bool_decide (is_Some (cv_sids (ac_rooms c).1 !! "b")) = true) ∧ ac_socks (after (st_call ∅) st_range) = {["b"; "c"; "d"]}.
Proof.
  split_and!; [apply ex_call_ok|apply finished_by; vm_compute; reflexivity|vm_compute; reflexivity| |by_eval].
  apply (always_check _ _ (λ c, bool_decide (is_Some (cv_sids (ac_rooms c).1 !! "b")) = true)). vm_compute. reflexivity.
Qed.
