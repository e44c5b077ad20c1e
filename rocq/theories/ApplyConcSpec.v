(** Vocabulary for the statements about a broadcast concurrent with joins and leaves. *)
From Verif Require Import Base Rooms RoomsConc ApplyConc.

(** A call of apply, from the configuration where it starts. *)
Record acall := ACallOf {
  al_rooms : gset room; al_except : gset room; al_orm : order; al_oex : order; al_oid : room → order; al_o : order;
  al_start : rcconf; al_socks : gset sid }.
Definition after (a : acall) (ls : list alabel) : aconf :=
  a_run (al_rooms a) (al_except a) (al_orm a) (al_oex a) (al_oid a) (al_o a) (al_start a) (al_socks a) ls.
(** Every enumeration is of the right elements; the call starts in a state that joins and leaves lead to. *)
Definition acall_ok (a : acall) : Prop :=
  order_ok (al_orm a) ∧ order_ok (al_oex a) ∧ (∀ r, order_ok (al_oid a r)) ∧ order_ok (al_o a) ∧
  ∃ g ts sched, al_start a = rc_run (al_o a) g ts sched.

(** At every time, at some time, during the call. *)
Definition always (a : acall) (ls : list alabel) (P : aconf → Prop) : Prop := ∀ l, l `prefix_of` ls → P (after a l).
Definition sometime (a : acall) (ls : list alabel) (P : aconf → Prop) : Prop := ∃ l, l `prefix_of` ls ∧ P (after a l).

Definition is_listed (id : sid) (c : aconf) : Prop := id ∈ ac_socks c.
Definition is_member (id : sid) (r : room) (c : aconf) : Prop := id ∈ conc_members (ac_rooms c).1 r.
(** The adapter knows the socket: it is in the table of sids. *)
Definition is_known (id : sid) (c : aconf) : Prop := is_Some (cv_sids (ac_rooms c).1 !! id).
(** A call that has not returned makes [id] join [r]. *)
Definition is_joining (id : sid) (r : room) (rc : rcconf) : Prop := ∃ R p, (RcAdd id R, p) ∈ rc.2 ∧ r ∈ R ∧ p ≠ PDone.
(** The targeting rule at one time. *)
Definition matching (a : acall) (id : sid) (c : aconf) : Prop :=
  is_listed id c ∧ (if decide (al_rooms a = ∅) then is_known id c else ∃ r, r ∈ al_rooms a ∧ is_member id r c) ∧
  ¬ ∃ e, e ∈ al_except a ∧ is_member id e c.
Definition finished (c : aconf) : Prop := ac_pc c = ADone.
(** A step that does not change the table of sockets. *)
Definition quiet (x : alabel) : Prop := match x with AListed _ _ => False | _ => True end.
