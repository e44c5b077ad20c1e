(** Vocabulary for the statements about concurrent joins and leaves. *)
From Verif Require Import Base Rooms RoomsConc.

(** Before the calls the two views agree. *)
Definition agreeing (g : registry) : Prop := ∀ id r, id ∈ members_of g r ↔ r ∈ rooms_of g id.
(** All calls have returned. *)
Definition returned (c : rcconf) : Prop := ∀ t p, (t, p) ∈ c.2 → p = PDone.
(** One of the calls makes [id] join [r]; one of them makes it leave. *)
Definition joins (ts : list rcall) (id : sid) (r : room) : Prop := ∃ R, RcAdd id R ∈ ts ∧ r ∈ R.
Definition leaves (ts : list rcall) (id : sid) (r : room) : Prop := RcDel id r ∈ ts ∨ RcDelAll id ∈ ts.
(** Nobody leaves [r], not even a socket that is not in it. *)
Definition untouched (g : registry) (ts : list rcall) (r : room) : Prop :=
  ∀ id, RcDel id r ∉ ts ∧ (RcDelAll id ∈ ts → r ∉ rooms_of g id ∧ ¬ joins ts id r).
(** Some member of [r] does not leave it. *)
Definition inhabited (g : registry) (ts : list rcall) (r : room) : Prop := ∃ id, id ∈ members_of g r ∧ ¬ leaves ts id r.
