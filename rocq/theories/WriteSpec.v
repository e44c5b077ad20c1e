(** Vocabulary for writes to a connection. *)
From Verif Require Import Base Write.

(** The calls of a schedule, in order: via _packet?, volatile, frames.  The n-th call runs as goroutine n. *)
Definition wcalls (ls : list wlabel) : list (bool * bool * list string) :=
  omap (λ l, match l with WCallP v fs => Some (true, v, fs) | WCallE v fs => Some (false, v, fs) | _ => None end) ls.
(** The frames of call [t]; the block it writes. *)
Definition frames_of (ls : list wlabel) (t : nat) : list string := default [] (snd <$> wcalls ls !! t).
Definition block (ls : list wlabel) (t : nat) : list (nat * string) := pair t <$> frames_of ls t.
(** The call has returned, with this result. *)
Definition returned (s : wst) (t : nat) (r : wres) : Prop := ∃ x, w_thr s !! t = Some x ∧ wt_pc x = WDone r.
(** At some moment of the schedule, goroutine [t] executed its step [pc] while [P] held. *)
Definition at_moment (ls : list wlabel) (t : nat) (pc : wpc) (P : wst → Prop) : Prop :=
  ∃ ls1 ls2 s x, ls = ls1 ++ WRun t :: ls2 ∧ wexec ls1 wst0 = Some s ∧ w_thr s !! t = Some x ∧ wt_pc x = pc ∧ P s.
