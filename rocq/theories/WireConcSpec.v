(** Vocabulary for the conversation of a client with a namespace. *)
From Verif Require Import Base LifeConc LifeConcSpec WireConc.

(** Where the admission stands (call 0), in state [s]. *)
Definition admission_at (s : wstate) (p : lpc) : Prop := ∃ t, lf_calls (w_life s) !! 0 = Some (t, p).
(** The admission has made the socket known to the client. *)
Definition admitted (s : wstate) : Prop := admission_at s QConnect ∨ admission_at s QConnection ∨ admission_at s QDone.
(** The admission has not yet put the socket into the table of the namespace. *)
Definition before_store (s : wstate) : Prop := admission_at s QStart ∨ admission_at s QStore.
(** Some call that closes the socket has begun. *)
Definition closing (s : wstate) : Prop := ∃ i t p, lf_calls (w_life s) !! i = Some (t, p) ∧ closes t ∧ p ≠ QStart.
(** The packet [j] of the client has been handed to the socket; has been refused. *)
Definition handled (s : wstate) (j : nat) : Prop := ∃ t, w_threads s !! j = Some (t, VEnd WHandled).
Definition refused (s : wstate) (j : nat) : Prop := ∃ t, w_threads s !! j = Some (t, VEnd WRefused).
(** The next step [l] in state [s] makes a packet before CONNECT possible: a broadcast looks the socket up, somebody emits to it or
    disconnects it. *)
Definition disturbs (s : wstate) (l : nat + nat) : Prop :=
  match l with
  | inl i => lf_calls (w_life s) !! i = Some (LcDisconnect, QStart)
  | inr j => (∃ t, w_threads s !! j = Some (t, VLook)) ∨ w_threads s !! j = Some (WEmit, VStart)
  end.
(** In every state of the run before CONNECT is written, the next step does not. *)
Definition undisturbed (s : lstate) (ts : list lcall) (ws : list wcall) (sched : list (nat + nat)) : Prop :=
  ∀ l1 l l2, sched = l1 ++ l :: l2 → PConnect ∉ w_wire (w_run s ts ws l1) → ¬ disturbs (w_run s ts ws l1) l.
(** The client sends only after it has received CONNECT: its packets are read after CONNECT was written. *)
Definition polite (s : lstate) (ts : list lcall) (ws : list wcall) (sched : list (nat + nat)) : Prop :=
  ∀ l1 j l2 b p, sched = l1 ++ inr j :: l2 → w_threads (w_run s ts ws l1) !! j = Some (WIn b, p) → PConnect ∈ w_wire (w_run s ts ws l1).
(** The broadcast finds the socket in the state [s]. *)
Definition matches (s : wstate) (r : option room) : Prop :=
  match r with Some r => r ∈ ls_rooms (lf_state (w_life s)) | None => ls_rooms (lf_state (w_life s)) ≠ ∅ end.
Definition listed (s : wstate) : Prop := ls_listed (lf_state (w_life s)) = true.
Definition is_open (s : wstate) : Prop := ls_open (lf_state (w_life s)) = true.
Global Instance wpacket_eq_dec : EqDecision wpacket.
Proof. solve_decision. Defined.
