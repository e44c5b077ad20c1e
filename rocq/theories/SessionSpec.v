(** What the recovery properties mean, in terms of the history of calls only. *)
From Verif Require Import Base GoTypes Session.

(** The clock does not go back. *)
Definition timed (h : list (Z * sop)) (now : Z) : Prop :=
  ∀ h1 t op h2, h = h1 ++ (t, op) :: h2 → (t ≤ now)%Z ∧ ∀ e, e ∈ h2 → (t ≤ e.1)%Z.

(** The last session saved for a private id, with the time. *)
Definition saved (h : list (Z * sop)) (pid : string) (x : session) (t : Z) : Prop :=
  ∃ h1 h2, h = h1 ++ (t, SPersist x) :: h2 ∧ se_pid x = pid ∧ ∀ t' y, (t', SPersist y) ∈ h2 → se_pid y ≠ pid.

(** The recoverable broadcasts of the history, oldest first: events without acknowledgement that
    are not volatile. *)
Definition recoverable (b : bcast) : Prop :=
  bc_type b = EVENT ∧ bc_ack b = false ∧
  ∀ o f, bc_opts b = Some o → bo_flags o = Some f → fl_volatile f = false.
#[global] Instance recoverable_dec b : Decision (recoverable b).
Proof.
  destruct (decide (bc_type b = EVENT)) as [H1|H1]; [|right; unfold recoverable; tauto].
  destruct (decide (bc_ack b = false)) as [H2|H2]; [|right; unfold recoverable; tauto].
  destruct (bc_opts b) as [o|] eqn:Eo; [|left; split; [done|]; split; [done|]; congruence].
  destruct (bo_flags o) as [f|] eqn:Ef; [|left; split; [done|]; split; [done|]; congruence].
  destruct (decide (fl_volatile f = false)) as [H3|H3]; [left|right].
  - split; [done|]. split; [done|]. intros o' f' Ho' Hf'. rewrite Eo in Ho'. injection Ho' as <-. congruence.
  - intros (_&_&H). by apply H3, (H o f).
Defined.
Definition broadcasts (h : list (Z * sop)) : list (string * Z * bcast) :=
  omap (λ e, match e.2 with SBcast id b => if decide (recoverable b) then Some (id, e.1, b) else None | _ => None end) h.

(** The packet with identifier [off] is still remembered: no cleanup ran later than [max] after it
    was emitted. *)
Definition remembered (max : Z) (h : list (Z * sop)) (off : string) : Prop :=
  ∃ h1 t b h2, h = h1 ++ (t, SBcast off b) :: h2 ∧ recoverable b ∧ ∀ tc, (tc, SCleanup) ∈ h2 → (tc ≤ t + max)%Z.

(** A broadcast with these options concerns a socket that is in the rooms [rooms]. *)
Definition concerns (rooms : gset room) (b : bcast) : Prop :=
  match bc_opts b with
  | Some (BOpts (Some rs) (Some ex) _) => (rs = ∅ ∨ ∃ r, r ∈ rs ∧ r ∈ rooms) ∧ ¬ ∃ r, r ∈ ex ∧ r ∈ rooms
  | _ => False
  end.
#[global] Instance concerns_dec rooms b : Decision (concerns rooms b).
Proof.
  unfold concerns. destruct (bc_opts b) as [[[rs|] [ex|] f]|]; try apply _.
Defined.
(** Every emission of the public API passes options with both sets
    (socket/broadcast-operator.go:199-204, socket/socket.go:301-308). *)
Definition proper (b : bcast) : Prop := ∃ rs ex f, bc_opts b = Some (BOpts (Some rs) (Some ex) f).
Definition all_proper (h : list (Z * sop)) : Prop := ∀ t id b, (t, SBcast id b) ∈ h → proper b.
(** The packet identifiers are distinct (utils.YeastDate). *)
Definition ids_distinct (h : list (Z * sop)) : Prop := NoDup ((λ x, x.1.1) <$> broadcasts h).

(** What a packet looks like on the wire: the arguments followed by the identifier. *)
Definition wire_data (x : string * Z * bcast) : list value := bc_data x.2 ++ [VStr x.1.1].
