(** Property C73: the connect timeout of a connection under concurrency. *)
From Verif Require Import Base TimerConc TimerConcProofs.

(** ** C73 The connect timeout
    [ts]: the calls on one connection (the end of its setup, the timer, admissions, departures, the close of the transport), [trun ts sched]: after any
    interleaving of their steps.  [VHang]: the server hangs up because of the timer; [VAnnounced n]: the application was told of the socket in [n]. *)
(** The server hangs up only if the timer fired and found the client in no namespace. *)
Theorem C73_only : ∀ (ts : list tcall) (sched : list nat), VHang ∈ t_log (trun ts sched) →
  ∃ s1 i s2, sched = s1 ++ i :: s2 ∧ t_threads (trun ts s1) !! i = Some (TFire, XLen) ∧ t_nsps (t_state (trun ts s1)) = ∅.
Proof. exact only. Qed.
Print Assumptions C73_only.
(** A client that sends no CONNECT that is accepted and does not close is hung up. *)
Theorem C73_alone : ∀ (ts : list tcall) (sched : list nat), (∀ n, TAdmit n ∉ ts) → TDown ∉ ts → TSetup ∈ ts → TFire ∈ ts →
  (∀ t p, (t, p) ∈ t_threads (trun ts sched) → p = XEnd) → VHang ∈ t_log (trun ts sched) ∧ t_open (t_state (trun ts sched)) = false.
Proof. exact alone. Qed.
Print Assumptions C73_alone.
(** A client that was announced before the timer fired is never hung up, also when it leaves all its namespaces; provided that setup was over
    ([sched0]) when its CONNECT was accepted. *)
Theorem C73_announced : ∀ (ts : list tcall) (sched0 sched1 sched2 : list nat) (n : string),
  (TSetup, XEnd) ∈ t_threads (trun ts sched0) → (∀ m p, (TAdmit m, p) ∈ t_threads (trun ts sched0) → p = XStart) →
  VAnnounced n ∈ t_log (trun ts (sched0 ++ sched1)) → (∀ p, (TFire, p) ∈ t_threads (trun ts (sched0 ++ sched1)) → p = XStart) →
  VHang ∉ t_log (trun ts ((sched0 ++ sched1) ++ sched2)).
Proof. exact announced. Qed.
Print Assumptions C73_announced.
(** A client in a namespace that it does not leave is not hung up by a timer that has not yet looked. *)
Theorem C73_stays : ∀ (ts : list tcall) (sched1 sched2 : list nat) (n : string), n ∈ t_nsps (t_state (trun ts sched1)) → TGo n ∉ ts →
  VHang ∉ t_log (trun ts sched1) → (TFire, XReady) ∉ t_threads (trun ts sched1) → (TFire, XHang) ∉ t_threads (trun ts sched1) →
  VHang ∉ t_log (trun ts (sched1 ++ sched2)).
Proof. exact stays. Qed.
Print Assumptions C73_stays.

(** A timer that has looked hangs up a client that was sent its CONNECT and announced since, and that is in its namespace. *)
Theorem C73_race_refuted : ∃ (ts : list tcall) (sched : list nat) (n : string), (∀ m, TGo m ∉ ts) ∧ n ∈ t_nsps (t_state (trun ts sched)) ∧
  t_log (trun ts sched) = [VConnect n; VAnnounced n; VHang].
Proof.
  exists [TSetup; TFire; TAdmit "/"], [0; 0; 1; 1; 2; 2; 2; 2; 2; 2; 2; 1; 1], "/". split_and!; [|by_eval|by vm_compute].
  intros m Hm. repeat (apply elem_of_cons in Hm as [[=]|Hm]). by apply elem_of_nil in Hm.
Qed.
Print Assumptions C73_race_refuted.
(** ... and one that is announced after it was hung up. *)
Theorem C73_late_refuted : ∃ (ts : list tcall) (sched : list nat) (n : string), t_log (trun ts sched) = [VConnect n; VHang; VAnnounced n].
Proof. exists [TSetup; TFire; TAdmit "/"], [0; 0; 1; 1; 2; 2; 1; 1; 2; 2; 2; 2; 2], "/". by vm_compute. Qed.
Print Assumptions C73_late_refuted.
(** A CONNECT accepted between SetTimeout and the store of the timer does not stop it: the client is announced long before the timer fires, leaves its
    namespace and is hung up. *)
Theorem C73_early_refuted : ∃ (ts : list tcall) (sched1 sched2 : list nat) (n : string), VAnnounced n ∈ t_log (trun ts sched1) ∧
  (TSetup, XEnd) ∈ t_threads (trun ts sched1) ∧ (∀ p, (TFire, p) ∈ t_threads (trun ts sched1) → p = XStart) ∧ VHang ∈ t_log (trun ts (sched1 ++ sched2)).
Proof.
  exists [TSetup; TAdmit "/"; TGo "/"; TFire], [0; 1; 1; 1; 1; 1; 0], [2; 3; 3; 3; 3], "/". cbn. split_and!; [set_solver|set_solver| |set_solver].
  intros p Hp. repeat (apply elem_of_cons in Hp as [Hp|Hp]; [by simplify_eq|]). by apply elem_of_nil in Hp.
Qed.
Print Assumptions C73_early_refuted.

(** A client that is admitted in time, leaves and stays connected; one that never sends a CONNECT. *)
Definition c73_calls : list tcall := [TSetup; TAdmit "/"; TGo "/"; TFire].
Example C73_example : (TSetup, XEnd) ∈ t_threads (trun c73_calls [0; 0]) ∧ (∀ m p, (TAdmit m, p) ∈ t_threads (trun c73_calls [0; 0]) → p = XStart) ∧
  t_log (trun c73_calls ([0; 0] ++ [1; 1; 1; 1; 1; 1; 1])) = [VConnect "/"; VAnnounced "/"] ∧
  t_threads (trun c73_calls ([0; 0] ++ [1; 1; 1; 1; 1; 1; 1])) = [(TSetup, XEnd); (TAdmit "/", XEnd); (TGo "/", XStart); (TFire, XStart)] ∧
  t_log (trun c73_calls (([0; 0] ++ [1; 1; 1; 1; 1; 1; 1]) ++ [2; 3; 3; 3; 3])) = [VConnect "/"; VAnnounced "/"] ∧
  t_open (t_state (trun c73_calls (([0; 0] ++ [1; 1; 1; 1; 1; 1; 1]) ++ [2; 3; 3; 3; 3]))) = true.
Proof.
  split_and!; [cbn; set_solver| |by vm_compute..]. intros m p Hp. cbn in Hp. repeat (apply elem_of_cons in Hp as [Hp|Hp]; [by simplify_eq|]). by apply elem_of_nil in Hp.
Qed.
Example C73_example_silent : t_log (trun [TFire; TSetup] [0; 1; 1; 0; 0; 0; 0; 0; 0; 0]) = [VHang] ∧
  t_threads (trun [TFire; TSetup] [0; 1; 1; 0; 0; 0; 0; 0; 0; 0]) = [(TFire, XEnd); (TSetup, XEnd)] ∧
  t_nsps (t_state (trun [TFire; TSetup] [0; 1; 1; 0])) = ∅.
Proof. by vm_compute. Qed.
