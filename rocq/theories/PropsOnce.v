(** Property C12: the acknowledgement function given to handlers. *)
From Verif Require Import Base GoTypes Once OnceProofs.

(** ** C12 The server answers a client event at most once
    In every schedule of any number of goroutines calling the functions of any number of events:
    at most one ACK packet is sent for event [e]; it has the id of the event and the arguments of
    one of the calls; and it has been sent as soon as one of the calls has returned. *)
Theorem C12_answered_once : ∀ (ls : list olabel) (s : ost) (e : nat), oexec ls ost0 = Some s →
  length (sent_for e s) ≤ 1 ∧
  (∀ p, p ∈ sent_for e s → oevents ls !! e = Some p.1.2 ∧ OCall e p.2 ∈ ls) ∧
  ((∃ t x, o_thr s !! t = Some x ∧ ot_ev x = e ∧ ot_pc x = ODone) → length (sent_for e s) = 1).
Proof. exact once_c12. Qed.
Print Assumptions C12_answered_once.

(** Two events with ids 7 and 9; three goroutines answer the second, two of them past the fast
    path before the lock is taken, the third after [done] is set. *)
Definition sched_once : list olabel :=
  [OEvent 7; OEvent 9; OCall 1 [VStr "a"]; OCall 1 [VStr "b"]; ORun 0; ORun 1; ORun 1; ORun 1; ORun 1; ORun 1; ORun 1;
   OCall 1 [VStr "c"]; ORun 2; ORun 0; ORun 0; ORun 0].
Example C12_example : ∃ s, oexec sched_once ost0 = Some s ∧ o_sent s = [(1, 9%N, [VStr "b"])] ∧
  (∀ t x, o_thr s !! t = Some x → ot_pc x = ODone).
Proof.
  eexists. split; [vm_compute; reflexivity|]. split; [done|].
  intros [|[|[|t]]] x; simpl; intros Hx; try (by injection Hx as <-); by destruct t.
Qed.
