(** Property C59: the store of the session-aware adapter when broadcasts, saved sessions, restorations and the periodic cleanup
    are interleaved (socket/session-aware-adapter.go:58-144).  [q_start]: calls about to be made; the identifiers of
    packets are distinct.  The clock is arbitrary. *)
From Verif Require Import Base GoTypes Session SessionSpec SessionConc SessionConcSpec SessionConcProofs SessionConcExamples.

(** ** The packets
    The store holds the packets in the order of their pushes, minus a prefix; identifiers stay distinct; the pushed packets are
    those of the recoverable broadcasts that passed their push, each once, with a time that their thread read.  What was
    removed precedes, or is, a packet that some cleanup found expired. *)
Theorem C59_packets : ∀ max ses ps ts, q_start ps ts → ∀ sched,
  let s := qrun max (qinit ses ps ts) sched in let new := q_log max (qinit ses ps ts) sched in let log := ps ++ new in
  (∃ k, q_packets s = drop k log ∧
     ∀ j p, j < k → log !! j = Some p → ∃ j' q e, j ≤ j' ∧ log !! j' = Some q ∧ e ∈ sched ∧ (sp_at q + max < e.2)%Z) ∧
  NoDup (sp_id <$> log) ∧
  (∀ p, p ∈ new → ∃ i, (i, sp_at p) ∈ sched ∧ q_in_store s i ∧ q_packet_of s i p) ∧
  (∀ i, q_in_store s i → ∃ p, p ∈ new ∧ q_packet_of s i p).
Proof. exact store_log. Qed.
Print Assumptions C59_packets.
(** Every broadcast hands its packet to the inner adapter once: the arguments, and the identifier under which it is stored if it is
    recoverable. *)
Theorem C59_handed : ∀ max ses ps ts, q_start ps ts → ∀ sched,
  q_sent (qrun max (qinit ses ps ts) sched) ≡ₚ q_returned (q_threads (qrun max (qinit ses ps ts) sched)).
Proof. exact handed_once. Qed.
Print Assumptions C59_handed.
Example C59_packets_example : let ts := [qx_bcast "1"; qx_bcast "2"; QCleanup [] QC0] in
  let sched := [(0, 10%Z); (1, 20%Z); (1, 20%Z); (2, 30%Z); (0, 30%Z); (2, 30%Z); (2, 30%Z)] in
  q_start [qx_p "0" (-200)] ts ∧ q_log 100 (qinit ∅ [qx_p "0" (-200)] ts) sched = [qx_p "2" 20; qx_p "1" 10] ∧
  q_packets (qrun 100 (qinit ∅ [qx_p "0" (-200)] ts) sched) = [qx_p "2" 20; qx_p "1" 10].
Proof. cbv zeta. split; [qx_start|]. split; vm_compute; reflexivity. Qed.

(** ** Restorations
    Whatever happens meanwhile: a restored session was in the store and not expired; the offset was in the store; what is
    replayed are packets pushed after the one of the offset that concern the rooms of the session, in order, each at
    most once. *)
Theorem C59_sound : ∀ max ses ps ts, q_start ps ts → ∀ sched i o pid off x missed,
  let s0 := qinit ses ps ts in
  q_threads (qrun max s0 sched) !! i = Some (QRestore o pid off (QRdone (RSession x missed))) →
  (∃ s1 s2 u now, sched = s1 ++ s2 ∧ q_sessions (qrun max s0 s1) !! pid = Some (x, u) ∧ (i, now) ∈ s2 ∧ (now ≤ u + max)%Z) ∧
  (∃ s1 s2, sched = s1 ++ s2 ∧ off ∈ sp_id <$> q_packets (qrun max s0 s1)) ∧
  ∃ l1 p l2, ps ++ q_log max s0 sched = l1 ++ p :: l2 ∧ sp_id p = off ∧
    missed `sublist_of` (sp_data <$> filter (p_concerns (se_rooms x)) l2).
Proof. exact restore_sound. Qed.
Print Assumptions C59_sound.
(** When nothing is removed from the moment the offset is searched, exactly the packets after it are replayed, together with
    the first of those pushed meanwhile; the restoration fails only when the offset is not in the store. *)
Theorem C59_complete : ∀ max ses ps ts, q_start ps ts → ∀ s1 i t s2 o pid off x r new,
  let s0 := qinit ses ps ts in let before := qrun max s0 s1 in let final := qrun max s0 (s1 ++ (i, t) :: s2) in
  q_threads before !! i = Some (QRestore o pid off (QRfind x)) → q_threads final !! i = Some (QRestore o pid off (QRdone r)) →
  q_packets final = q_packets before ++ new →
  (off ∉ sp_id <$> q_packets before ∧ r = RFresh) ∨
  ∃ l1 p l2 n, q_packets before = l1 ++ p :: l2 ∧ sp_id p = off ∧
    r = RSession x (sp_data <$> filter (p_concerns (se_rooms x)) (l2 ++ take n new)).
Proof. exact restore_complete. Qed.
Print Assumptions C59_complete.
(** A packet whose broadcast begins after the one of the offset returned, and that is pushed before the offset is searched,
    is replayed if it concerns the rooms of the session. *)
Theorem C59_no_loss : ∀ max ses ps ts, q_start ps ts → ∀ s1 s2 i t s3 o pid off x missed new k b0 j id b pc,
  let s0 := qinit ses ps ts in
  let early := qrun max s0 s1 in let before := qrun max s0 (s1 ++ s2) in let final := qrun max s0 (s1 ++ s2 ++ (i, t) :: s3) in
  q_threads early !! k = Some (QBcast off b0 QBdone) → recoverable b0 →
  q_threads early !! j = Some (QBcast id b QB0) → recoverable b →
  q_threads before !! j = Some (QBcast id b pc) → pc = QBsend ∨ pc = QBdone →
  q_threads before !! i = Some (QRestore o pid off (QRfind x)) →
  q_threads final !! i = Some (QRestore o pid off (QRdone (RSession x missed))) →
  q_packets final = q_packets before ++ new →
  concerns (se_rooms x) b → bc_data b ++ [VStr id] ∈ missed.
Proof. exact restore_no_loss. Qed.
Print Assumptions C59_no_loss.
Example C59_restore_example : let ts := [qx_bcast "0"; qx_bcast "1"; qx_bcast "2"; qx_bcast "3"; qx_restore "0"] in
  let s0 := qinit {["pid" := (qx_s, 5%Z)]} [] ts in
  let s1 := qx_times 3 0 1 ++ [(4, 50%Z)] in let s2 := qx_times 2 1 51 ++ [(4, 52%Z)] in
  let s3 := qx_times 2 2 54 ++ qx_times 5 4 55 ++ qx_times 2 3 56 ++ qx_times 3 4 57 in
  q_start [] ts ∧
  q_threads (qrun 100 s0 s1) !! 0 = Some (QBcast "0" (qx_b "ev") QBdone) ∧ q_threads (qrun 100 s0 s1) !! 1 = Some (qx_bcast "1") ∧
  q_threads (qrun 100 s0 (s1 ++ s2)) !! 1 = Some (QBcast "1" (qx_b "ev") QBsend) ∧
  q_threads (qrun 100 s0 (s1 ++ s2)) !! 4 = Some (QRestore ord_std "pid" "0" (QRfind qx_s)) ∧
  q_threads (qrun 100 s0 (s1 ++ s2 ++ (4, 53%Z) :: s3)) !! 4 =
    Some (QRestore ord_std "pid" "0" (QRdone (RSession qx_s [[VStr "ev"; VStr "1"]; [VStr "ev"; VStr "2"]; [VStr "ev"; VStr "3"]]))) ∧
  q_packets (qrun 100 s0 (s1 ++ s2 ++ (4, 53%Z) :: s3)) = q_packets (qrun 100 s0 (s1 ++ s2)) ++ [qx_p "2" 54; qx_p "3" 56] ∧
  recoverable (qx_b "ev") ∧ concerns (se_rooms qx_s) (qx_b "ev").
Proof. cbv zeta. split; [qx_start|]. repeat (split; [vm_compute; reflexivity|]). split; apply (bool_decide_unpack _); vm_compute; exact I. Qed.

(** ** Sessions *)
(** PersistSession puts the session into the store with a time that it read. *)
Theorem C59_saved : ∀ max ses ps ts, q_start ps ts → ∀ sched i x, let s0 := qinit ses ps ts in
  q_threads (qrun max s0 sched) !! i = Some (QPersist x QPdone) →
  ∃ s1 t s2 u, sched = s1 ++ (i, t) :: s2 ∧ (i, u) ∈ s1 ∧ q_threads (qrun max s0 s1) !! i ≠ Some (QPersist x QPdone) ∧
    q_sessions (qrun max s0 (s1 ++ [(i, t)])) !! se_pid x = Some (x, u).
Proof. exact session_saved. Qed.
Print Assumptions C59_saved.
(**
    A saved session stays in the store as long as no clock reads later than [max] after it was saved, unless, when it was saved,
    a restoration or a cleanup was dealing with an older session of the same client or yet another was being saved. *)
Theorem C59_kept : ∀ max ses ps ts, q_start ps ts → ∀ s1 s2 pid x u, let s0 := qinit ses ps ts in
  q_sessions (qrun max s0 s1) !! pid = Some (x, u) → (∀ i t, q_threads (qrun max s0 s1) !! i = Some t → ¬ q_busy pid t) →
  Forall (λ e, (e.2 ≤ u + max)%Z) (s1 ++ s2) → q_sessions (qrun max s0 (s1 ++ s2)) !! pid = Some (x, u).
Proof. exact session_kept. Qed.
Print Assumptions C59_kept.
Example C59_kept_example : let ts := [QPersist qx_s QP0; qx_restore "0"; QCleanup ["pid"] QC0] in let s0 := qinit ∅ [] ts in
  let s1 := qx_times 2 0 5 in let s2 := qx_times 2 1 50 ++ qx_times 4 2 105 ++ qx_times 2 1 105 in
  q_start [] ts ∧ q_sessions (qrun 100 s0 s1) !! "pid" = Some (qx_s, 5%Z) ∧
  (∀ i t, q_threads (qrun 100 s0 s1) !! i = Some t → ¬ q_busy "pid" t) ∧ Forall (λ e, (e.2 ≤ 5 + 100)%Z) (s1 ++ s2) ∧
  q_threads (qrun 100 s0 (s1 ++ s2)) = [QPersist qx_s QPdone; QRestore ord_std "pid" "0" (QRdone RFresh); QCleanup ["pid"] QCdone].
Proof.
  cbv zeta. split; [qx_start|]. split; [vm_compute; reflexivity|]. split; [|split; [|vm_compute; reflexivity]].
  - intros [|[|[|i]]] t; cbn; intros H; inversion H; subst; cbn; auto.
  - cbn. repeat (apply Forall_cons; split; [cbn; lia|]). by apply Forall_nil.
Qed.

(** ** What goes wrong otherwise *)
(** A cleanup during a restoration shifts the indices: a packet that is in the store all the time, after the offset, and concerns the
    session, is skipped. *)
Theorem C59_skipped_refuted : ∃ max ses ps ts sched i o pid off x missed l1 p l2 q,
  let final := qrun max (qinit ses ps ts) sched in
  q_start ps ts ∧ q_threads final !! i = Some (QRestore o pid off (QRdone (RSession x missed))) ∧
  q_packets final = l1 ++ p :: l2 ∧ sp_id p = off ∧ q ∈ l2 ∧ q ∈ ps ∧ p_concerns (se_rooms x) q ∧ sp_data q ∉ missed.
Proof.
  exists 100%Z, {["pid" := (qx_s, 60%Z)]}, [qx_p "0" 0; qx_p "1" 50; qx_p "2" 60; qx_p "3" 70], [qx_restore "1"; QCleanup ["pid"] QC0],
    (qx_times 5 0 110 ++ qx_times 4 1 110 ++ qx_times 2 0 110), 0, ord_std, "pid", "1", qx_s, [[VStr "ev"; VStr "3"]], [], (qx_p "1" 50), [qx_p "2" 60; qx_p "3" 70], (qx_p "2" 60).
  cbv zeta. split; [qx_start|]. split; [vm_compute; reflexivity|]. split; [vm_compute; reflexivity|]. split; [done|]. split; [apply elem_of_list_here|].
  split; [apply elem_of_list_further, elem_of_list_further, elem_of_list_here|]. split; [apply (bool_decide_unpack _); vm_compute; exact I|].
  intros H. apply elem_of_list_singleton in H. discriminate H.
Qed.
Print Assumptions C59_skipped_refuted.
(** The offset is found, a cleanup removes it, and the capacity given to make is negative: the restoration panics. *)
Theorem C59_panic_refuted : ∃ max ses ps ts sched i o pid off x u,
  let final := qrun max (qinit ses ps ts) sched in
  q_start ps ts ∧ ses !! pid = Some (x, u) ∧ Forall (λ e, (e.2 ≤ u + max)%Z) sched ∧
  q_threads final !! i = Some (QRestore o pid off (QRdone RPanic)).
Proof.
  exists 100%Z, {["pid" := (qx_s, 60%Z)]}, [qx_p "1" 0], [qx_restore "1"; QCleanup ["pid"] QC0], (qx_times 3 0 110 ++ qx_times 4 1 110 ++ qx_times 1 0 110),
    0, ord_std, "pid", "1", qx_s, 60%Z.
  cbv zeta. split; [qx_start|]. split; [vm_compute; reflexivity|]. split; [|vm_compute; reflexivity].
  cbn. repeat (apply Forall_cons; split; [cbn; lia|]). by apply Forall_nil.
Qed.
Print Assumptions C59_panic_refuted.
(** A session saved while a cleanup deals with an older one of the same client is removed with it, ... *)
Theorem C59_deleted_refuted : ∃ max ses ps ts s1 s2 pid x u, let s0 := qinit ses ps ts in
  q_start ps ts ∧ q_sessions (qrun max s0 s1) !! pid = Some (x, u) ∧ q_threads (qrun max s0 s1) !! 0 = Some (QPersist x QPdone) ∧
  Forall (λ e, (e.2 ≤ u + max)%Z) (s1 ++ s2) ∧ (∃ ks, q_threads s0 !! 1 = Some (QCleanup ks QC0)) ∧ length ts = 2 ∧
  q_sessions (qrun max s0 (s1 ++ s2)) !! pid = None.
Proof.
  exists 100%Z, {["pid" := (qx_s, 0%Z)]}, [], [QPersist qx_s QP0; QCleanup ["pid"] QC0], (qx_times 2 1 110 ++ qx_times 2 0 110), (qx_times 3 1 110), "pid", qx_s, 110%Z.
  cbv zeta. split; [qx_start|]. split; [vm_compute; reflexivity|]. split; [vm_compute; reflexivity|]. split; [|split; [by eexists|]; split; vm_compute; reflexivity].
  cbn. repeat (apply Forall_cons; split; [cbn; lia|]). by apply Forall_nil.
Qed.
Print Assumptions C59_deleted_refuted.
(** ... and likewise during a restoration that found the older one expired. *)
Theorem C59_deleted_by_restore_refuted : ∃ max ses ps ts s1 s2 pid x u, let s0 := qinit ses ps ts in
  q_start ps ts ∧ q_sessions (qrun max s0 s1) !! pid = Some (x, u) ∧ q_threads (qrun max s0 s1) !! 0 = Some (QPersist x QPdone) ∧
  Forall (λ e, (e.2 ≤ u + max)%Z) (s1 ++ s2) ∧ (∃ o off, q_threads s0 !! 1 = Some (QRestore o pid off QR0)) ∧ length ts = 2 ∧
  q_sessions (qrun max s0 (s1 ++ s2)) !! pid = None.
Proof.
  exists 100%Z, {["pid" := (qx_s, 0%Z)]}, [], [QPersist qx_s QP0; qx_restore "1"], (qx_times 2 1 110 ++ qx_times 2 0 110), (qx_times 1 1 110), "pid", qx_s, 110%Z.
  cbv zeta. split; [qx_start|]. split; [vm_compute; reflexivity|]. split; [vm_compute; reflexivity|]. split; [|split; [by eexists _, _|]; split; vm_compute; reflexivity].
  cbn. repeat (apply Forall_cons; split; [cbn; lia|]). by apply Forall_nil.
Qed.
Print Assumptions C59_deleted_by_restore_refuted.
(** Overlapping broadcasts are not handed to the sockets in the order of the store.  A client that got "2" and not "1" when its
    session was saved, and is restored after both broadcasts returned, never gets "1", ... *)
Theorem C59_order_refuted : ∃ max ses ts s1 s2 s3 x missed, let s0 := qinit ses [] ts in
  q_start [] ts ∧ ts !! 0 = Some (qx_bcast "1") ∧ ts !! 1 = Some (qx_bcast "2") ∧ ts !! 2 = Some (QPersist x QP0) ∧ ts !! 3 = Some (qx_restore "2") ∧
  q_sent (qrun max s0 s1) = [[VStr "ev"; VStr "2"]] ∧ q_threads (qrun max s0 s1) !! 2 = Some (QPersist x QP0) ∧
  q_sessions (qrun max s0 (s1 ++ s2)) !! se_pid x = Some (x, 2%Z) ∧ q_sent (qrun max s0 (s1 ++ s2)) = [[VStr "ev"; VStr "2"]; [VStr "ev"; VStr "1"]] ∧
  q_threads (qrun max s0 (s1 ++ s2)) !! 3 = Some (qx_restore "2") ∧
  q_threads (qrun max s0 (s1 ++ s2 ++ s3)) !! 3 = Some (QRestore ord_std (se_pid x) "2" (QRdone (RSession x missed))) ∧
  concerns (se_rooms x) (qx_b "ev") ∧ [VStr "ev"; VStr "1"] ∉ missed.
Proof.
  exists 100%Z, ∅, [qx_bcast "1"; qx_bcast "2"; QPersist qx_s QP0; qx_restore "2"], (qx_times 2 0 1 ++ qx_times 3 1 1), (qx_times 2 2 2 ++ qx_times 1 0 2), (qx_times 6 3 3), qx_s, [].
  cbv zeta. split; [qx_start|]. repeat (split; [vm_compute; reflexivity|]). split; [apply (bool_decide_unpack _); vm_compute; exact I|]. apply not_elem_of_nil.
Qed.
Print Assumptions C59_order_refuted.
(** ... and a client that got "2" and then "1" gets "2" again. *)
Theorem C59_duplicate_refuted : ∃ max ses ts s1 s2 x missed, let s0 := qinit ses [] ts in
  q_start [] ts ∧ ts !! 0 = Some (qx_bcast "1") ∧ ts !! 1 = Some (qx_bcast "2") ∧ ts !! 2 = Some (QPersist x QP0) ∧ ts !! 3 = Some (qx_restore "1") ∧
  q_sent (qrun max s0 s1) = [[VStr "ev"; VStr "2"]; [VStr "ev"; VStr "1"]] ∧ q_threads (qrun max s0 s1) !! 2 = Some (QPersist x QP0) ∧
  q_threads (qrun max s0 (s1 ++ s2)) !! 3 = Some (QRestore ord_std (se_pid x) "1" (QRdone (RSession x missed))) ∧ [VStr "ev"; VStr "2"] ∈ missed.
Proof.
  exists 100%Z, ∅, [qx_bcast "1"; qx_bcast "2"; QPersist qx_s QP0; qx_restore "1"], (qx_times 2 0 1 ++ qx_times 3 1 1 ++ qx_times 1 0 1), (qx_times 2 2 2 ++ qx_times 8 3 3), qx_s, [[VStr "ev"; VStr "2"]].
  cbv zeta. split; [qx_start|]. repeat (split; [vm_compute; reflexivity|]). apply elem_of_list_here.
Qed.
Print Assumptions C59_duplicate_refuted.
(** The clock is read before the push, so the times in the store need not increase, even if those of the clock do; the
    cleanup then removes a packet that is not expired. *)
Theorem C59_unexpired_refuted : ∃ max ses ts sched p, let s0 := qinit ses [] ts in
  q_start [] ts ∧ (∀ i j e e', i ≤ j → sched !! i = Some e → sched !! j = Some e' → (e.2 ≤ e'.2)%Z) ∧
  p ∈ q_log max s0 sched ∧ (∀ e, e ∈ sched → (e.2 ≤ sp_at p + max)%Z) ∧ p ∉ q_packets (qrun max s0 sched).
Proof.
  exists 100%Z, ∅, [qx_bcast "1"; qx_bcast "2"; QCleanup [] QC0], ([(1, 0%Z); (0, 300%Z); (0, 300%Z); (1, 300%Z)] ++ qx_times 3 2 310), (qx_p "1" 300).
  cbv zeta. split; [qx_start|]. split; [|split; [apply elem_of_list_here|split]].
  - intros i j e e' Hij Hi Hj. do 7 (destruct i as [|i]; [do 7 (destruct j as [|j]; [cbn in Hi, Hj; first [lia | injection Hi as <-; injection Hj as <-; cbn; lia]|]); done|]). done.
  - intros e He. cbn in He. repeat (apply elem_of_cons in He as [->|He]; [cbn; lia|]). by apply elem_of_nil in He.
  - vm_compute. intros H. by apply elem_of_nil in H.
Qed.
Print Assumptions C59_unexpired_refuted.
