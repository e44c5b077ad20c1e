(** Vocabulary for the statements about one namespace. *)
From Verif Require Import Base GoTypes Rooms RoomsSpec Adapter.

(** The rooms and exclusions a call was given; nil pointers and nil options mean none. *)
Definition opt_rooms (opts : option bopts) : gset room := default ∅ (o ← opts; bo_rooms o).
Definition opt_except (opts : option bopts) : gset room := default ∅ (o ← opts; bo_except o).

(** [id] is a socket of the namespace and is in the room. *)
Definition in_room {P} (s : nspace P) (id : sid) (r : room) : Prop := id ∈ members_of (ns_reg s) r.
Definition listed {P} (s : nspace P) (id : sid) : Prop := is_Some (ns_sockets s !! id).

(** The targeting rule. *)
Definition matches {P} (s : nspace P) (rooms except : gset room) (id : sid) : Prop :=
  listed s id ∧ (rooms = ∅ ∨ ∃ r, r ∈ rooms ∧ in_room s id r) ∧ ¬ ∃ r, r ∈ except ∧ in_room s id r.

(** A well-formed namespace: both tables agree, a socket is listed under its own
    id, can join rooms, and is known to the adapter.  Every namespace
    that a history produces is of this form ([AdapterRunProofs.v]). *)
Definition ns_wf {P} (s : nspace P) : Prop :=
  (∀ id r, in_room s id r ↔ r ∈ rooms_of (ns_reg s) id) ∧
  (∀ r ids, rg_rooms (ns_reg s) !! r = Some ids → ids ≠ ∅) ∧
  (∀ id a, ns_sockets s !! id = Some a → as_id a = id ∧ as_can_join a = true) ∧
  (∀ id, listed s id → is_Some (rg_sids (ns_reg s) !! id)).
