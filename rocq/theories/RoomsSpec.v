(** Specification of room membership and targeting, independent of the tables
    of the adapter. *)
From Verif Require Import Base Rooms.

(** Operations of the public API on one namespace's rooms. *)
Inductive room_op :=
  | OpJoin (id : sid) (rs : list room)      (* AddAll: join all of rs *)
  | OpLeave (id : sid) (r : room)           (* Del *)
  | OpLeaveAll (id : sid) (o : order).      (* DelAll, iterating in order o *)

Definition op_ok (op : room_op) : Prop :=
  match op with OpLeaveAll _ o => order_ok o | _ => True end.

(** The operation makes [id] leave [r]. *)
Definition op_leaves (id : sid) (r : room) (op : room_op) : Prop :=
  match op with
  | OpJoin _ _ => False
  | OpLeave id' r' => id' = id ∧ r' = r
  | OpLeaveAll id' _ => id' = id
  end.

(** [id] is a member of [r] after the history [h] (oldest first): it joined [r]
    at some point and no later operation made it leave. *)
Definition is_member (h : list room_op) (id : sid) (r : room) : Prop :=
  ∃ before rs after, h = before ++ OpJoin id rs :: after ∧ r ∈ rs ∧
    Forall (λ op, ¬ op_leaves id r op) after.

(** [id] is known to the adapter: it joined (any set of rooms, even an empty one)
    and did not leave everything since. *)
Definition is_known (h : list room_op) (id : sid) : Prop :=
  ∃ before rs after, h = before ++ OpJoin id rs :: after ∧
    Forall (λ op, match op with OpLeaveAll id' _ => id' ≠ id | _ => True end) after.

(** Running a history on the model from the empty adapter, collecting the events. *)
Definition run_op (rep : bool) (op : room_op) (g : registry) : registry * list room_event :=
  match op with
  | OpJoin id rs => add_all id rs g
  | OpLeave id r => del rep id r g
  | OpLeaveAll id o => del_all rep o id g
  end.
Definition run_ops (rep : bool) (h : list room_op) : registry * list room_event :=
  foldl (λ acc op, let '(g', l') := run_op rep op acc.1 in (g', acc.2 ++ l')) (empty_registry, []) h.

(** Strict replay of room events: [None] on an impossible event. *)
Definition replay1 (m : gmap room (gset sid)) (e : room_event) : option (gmap room (gset sid)) :=
  match e with
  | CreateRoom r => match m !! r with None => Some (<[r := ∅]> m) | Some _ => None end
  | JoinRoom r id =>
      match m !! r with
      | Some ids => if decide (id ∈ ids) then None else Some (<[r := {[id]} ∪ ids]> m)
      | None => None
      end
  | LeaveRoom r id =>
      match m !! r with
      | Some ids => if decide (id ∈ ids) then Some (<[r := ids ∖ {[id]}]> m) else None
      | None => None
      end
  | DeleteRoom r =>
      match m !! r with
      | Some ids => if decide (ids = ∅) then Some (delete r m) else None
      | None => None
      end
  end.
Fixpoint replay (m : gmap room (gset sid)) (l : list room_event) : option (gmap room (gset sid)) :=
  match l with [] => Some m | e :: l => m' ← replay1 m e; replay m' l end.

(** The targeting rule of a broadcast: in at least one of the rooms (every socket
    known to the adapter when no room is given) and in none of the excluded rooms. *)
Definition selected (g : registry) (rooms except : gset room) (id : sid) : Prop :=
  (if decide (rooms = ∅) then is_Some (rg_sids g !! id) else ∃ r, r ∈ rooms ∧ id ∈ members_of g r)
  ∧ ¬ ∃ r, r ∈ except ∧ id ∈ members_of g r.
