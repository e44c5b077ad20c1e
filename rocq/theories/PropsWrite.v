(** Properties C15, C16: writing packets to a connection. *)
From Verif Require Import Base Write WriteSpec WriteProofs.

(** ** C15 Frames of a packet are contiguous on the connection
    In every schedule of any number of writers, what was handed to the transport is the
    concatenation of the blocks (all frames of one packet, in order) of distinct calls, followed
    by an initial part of the block of the call that currently holds the lock. *)
Theorem C15_frames_contiguous : ∀ (ls : list wlabel) (s : wst), wexec ls wst0 = Some s →
  ∃ (ts : list nat) (t : nat) (part : list (nat * string)), NoDup ts ∧ w_log s = concat (block ls <$> ts) ++ part ∧
    part `prefix_of` block ls t ∧ (part ≠ [] → w_lock s = Some t ∧ t ∉ ts).
Proof. exact contiguous. Qed.
Print Assumptions C15_frames_contiguous.

(** ** C16 Volatile packets are the only ones dropped
    Every call that has returned, in every schedule and with the transport changing at any time:
    it wrote its whole block once, or it was volatile and found the transport not writable at its
    check, or it went through _packet and found the connection not open. *)
Theorem C16_only_volatile_dropped : ∀ (ls : list wlabel) (s : wst) (t : nat) (r : wres),
  wexec ls wst0 = Some s → returned s t r →
  ∃ via v fs, wcalls ls !! t = Some (via, v, fs) ∧
  match r with
  | WWritten => (∃ l1 l2, w_log s = l1 ++ block ls t ++ l2 ∧ ∀ p, p ∈ l1 ++ l2 → p.1 ≠ t) ∧
                (v = true → at_moment ls t WCheck (λ s, w_writable s = true))
  | WDiscarded => v = true ∧ at_moment ls t WCheck (λ s, w_writable s = false) ∧ ∀ p, p ∈ w_log s → p.1 ≠ t
  | WIgnored => via = true ∧ at_moment ls t WReady (λ s, w_open s = false) ∧ ∀ p, p ∈ w_log s → p.1 ≠ t
  end.
Proof. exact write_result. Qed.
Print Assumptions C16_only_volatile_dropped.

(** A call that returned before another one started comes first on the connection. *)
Theorem C16_order : ∀ (ls1 ls2 : list wlabel) (s1 s : wst) (t u : nat) (r : wres),
  wexec ls1 wst0 = Some s1 → wexec (ls1 ++ ls2) wst0 = Some s → returned s1 t r → length (wcalls ls1) ≤ u →
  ∃ l1 l2, w_log s = l1 ++ l2 ∧ (∀ p, p ∈ l1 → p.1 ≠ u) ∧ (∀ p, p ∈ l2 → p.1 ≠ t).
Proof. exact write_order. Qed.
Print Assumptions C16_order.

(** A binary packet and a volatile one race; then the transport is busy and another volatile
    packet is dropped; then the connection closes. *)
Definition sched_write : list wlabel :=
  [WCallP false ["51-[..]"; "bin"]; WCallE true ["2[..]"]; WRun 1; WRun 0; WRun 1; WRun 1; WRun 1; WRun 1;
   WRun 0; WRun 0; WRun 0; WEnv true false; WCallE true ["x"]; WRun 0; WRun 0; WRun 0; WRun 2; WRun 2; WRun 2;
   WEnv false false; WCallP false ["y"]; WRun 3].
Example C15_example : ∃ s, wexec sched_write wst0 = Some s ∧
  w_log s = [(1, "2[..]"); (0, "51-[..]"); (0, "bin")] ∧ returned s 0 WWritten ∧ returned s 2 WDiscarded ∧ returned s 3 WIgnored.
Proof. eexists. split; [vm_compute; reflexivity|]. split; [done|]. split; [|split]; eexists; done. Qed.
(** Call 1 returned before call 2 started: the hypotheses of [C16_order]. *)
Example C16_example : let ls1 := take 11 sched_write in let ls2 := drop 11 sched_write ++ [WCallE false ["z"]; WRun 4; WRun 4; WRun 4; WRun 4] in
  ∃ s1 s, wexec ls1 wst0 = Some s1 ∧ wexec (ls1 ++ ls2) wst0 = Some s ∧ returned s1 1 WWritten ∧ length (wcalls ls1) = 2 ∧
    w_log s = [(1, "2[..]"); (0, "51-[..]"); (0, "bin"); (4, "z")].
Proof. cbv zeta. eexists _, _. split; [vm_compute; reflexivity|]. split; [vm_compute; reflexivity|]. split; [by eexists|]. split; vm_compute; reflexivity. Qed.
