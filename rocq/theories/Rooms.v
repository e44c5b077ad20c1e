(** Model of the in-memory adapter: room membership tables, room events and
    target selection.  Source: socket/adapter.go. *)
From Verif Require Import Base.

(** The [rooms] and [sids] fields, socket/adapter.go:16-26.
    Simplification: the sets are values here; the pointer structure matters only
    under concurrency and is modelled in [RoomsConc.v]. *)
Record registry := Registry {
  rg_rooms : gmap room (gset sid);
  rg_sids  : gmap sid (gset room)
}.

(** MakeAdapter, socket/adapter.go:33-44. *)
Definition empty_registry : registry := Registry ∅ ∅.

(** The events emitted on the adapter: socket/adapter.go:99, 103, 119, 123. *)
Inductive room_event :=
  | CreateRoom (r : room)
  | JoinRoom (r : room) (id : sid)
  | LeaveRoom (r : room) (id : sid)
  | DeleteRoom (r : room).
#[global] Instance room_event_eq_dec : EqDecision room_event.
Proof. solve_decision. Defined.

(** [types.Set.Delete] lives in a dependency that is not part of the repo.  Its
    boolean result decides whether leave-room is emitted (socket/adapter.go:118).
    [true] models a result that tells whether the key was present, [false] one
    that is always [true]. *)
Definition delete_result (reports : bool) (id : sid) (ids : gset sid) : bool :=
  if reports then bool_decide (id ∈ ids) else true.

(** Public views. *)
(** SocketRooms / Socket.Rooms, socket/adapter.go:228-233, socket/socket.go:861-866 *)
Definition rooms_of (g : registry) (id : sid) : gset room := default ∅ (rg_sids g !! id).
(** The entry of Rooms() for one room, socket/adapter.go:62-64. *)
Definition members_of (g : registry) (r : room) : gset sid := default ∅ (rg_rooms g !! r).

(** Body of the loop of AddAll, socket/adapter.go:95-105:
    [_rooms.Add(room)]; [LoadOrStore]; create-room if it was not there;
    add the id and emit join-room unless it is already a member. *)
Definition add_one (id : sid) (acc : registry * list room_event) (r : room) : registry * list room_event :=
  let '(g, log) := acc in
  let sids' := <[id := {[r]} ∪ default ∅ (rg_sids g !! id)]> (rg_sids g) in
  let '(ids, loaded) := match rg_rooms g !! r with Some ids => (ids, true) | None => (∅, false) end in
  let log1 := if (loaded : bool) then log else log ++ [CreateRoom r] in
  if decide (id ∈ ids)
  then (Registry (<[r := ids]> (rg_rooms g)) sids', log1)
  else (Registry (<[r := {[id]} ∪ ids]> (rg_rooms g)) sids', log1 ++ [JoinRoom r id]).

(** AddAll, socket/adapter.go:93-106.  [rs] is [rooms.Keys()] in whatever order
    the set enumerates it; theorems quantify over all lists. *)
Definition add_all (id : sid) (rs : list room) (g : registry) : registry * list room_event :=
  let sids0 := match rg_sids g !! id with Some _ => rg_sids g | None => <[id := ∅]> (rg_sids g) end in
  foldl (add_one id) (Registry (rg_rooms g) sids0, []) rs.

(** _del, socket/adapter.go:116-127. *)
Definition del_from_room (rep : bool) (r : room) (id : sid) (g : registry) : registry * list room_event :=
  match rg_rooms g !! r with
  | None => (g, [])
  | Some ids =>
      let ids' := ids ∖ {[id]} in
      let log := if delete_result rep id ids then [LeaveRoom r id] else [] in
      if decide (size ids' = 0)
      then (Registry (delete r (rg_rooms g)) (rg_sids g), log ++ [DeleteRoom r])
      else (Registry (<[r := ids']> (rg_rooms g)) (rg_sids g), log)
  end.

(** Del, socket/adapter.go:109-114. *)
Definition del (rep : bool) (id : sid) (r : room) (g : registry) : registry * list room_event :=
  let sids' := match rg_sids g !! id with
               | Some rs => <[id := rs ∖ {[r]}]> (rg_sids g)
               | None => rg_sids g
               end in
  del_from_room rep r id (Registry (rg_rooms g) sids').

(** Loop of DelAll, socket/adapter.go:132-134. *)
Definition del_rooms (rep : bool) (id : sid) (rs : list room) (g : registry) : registry * list room_event :=
  foldl (λ acc r, let '(g', l') := del_from_room rep r id acc.1 in (g', acc.2 ++ l')) (g, []) rs.

(** DelAll, socket/adapter.go:130-137; [o] is the order of [rooms.Keys()]. *)
Definition del_all (rep : bool) (o : order) (id : sid) (g : registry) : registry * list room_event :=
  match rg_sids g !! id with
  | None => (g, [])
  | Some rs =>
      let '(g', log) := del_rooms rep id (o rs) g in
      (Registry (rg_rooms g') (delete id (rg_sids g')), log)
  end.

(** computeExceptSids, socket/adapter.go:308-318.  A nil or empty set gives the empty set. *)
Definition except_sids (g : registry) (ex : option (gset room)) : gset sid :=
  match ex with
  | None => ∅
  | Some ex => set_fold (λ r acc, acc ∪ members_of g r) ∅ ex
  end.

(** apply, socket/adapter.go:269-306, for an arbitrary callback [cb] that may
    change the state [S] (Join, Leave, Disconnect do).  [get_reg] reads the
    adapter's tables and [sockets] the namespace's socket table from the state;
    both are re-read at each access as in the code.  The second component of the
    result logs the ids for which the callback was called, in order. *)
Section apply.
  Context {S A : Type}.
  Context (get_reg : S → registry) (sockets : S → gmap sid A) (cb : A → S → S).

  (** Loop body at socket/adapter.go:284-292, accumulator: state and [ids]. *)
  Definition visit_id (ex : gset sid) (acc : S * list sid) (id : sid) : S * list sid :=
    let '(s, seen) := acc in
    if decide (id ∈ seen ∨ id ∈ ex) then (s, seen)
    else match sockets s !! id with
         | Some sock => (cb sock s, seen ++ [id])
         | None => (s, seen)
         end.

  (** Loop body at socket/adapter.go:282-294. *)
  Definition visit_room (oid : room → order) (ex : gset sid) (acc : S * list sid) (r : room) : S * list sid :=
    match rg_rooms (get_reg acc.1) !! r with
    | Some ids => foldl (visit_id ex) acc (oid r ids)
    | None => acc
    end.

  (** Body of the Range at socket/adapter.go:296-304. *)
  Definition visit_all (ex : gset sid) (acc : S * list sid) (id : sid) : S * list sid :=
    let '(s, seen) := acc in
    if decide (id ∈ ex) then (s, seen)
    else match sockets s !! id with
         | Some sock => (cb sock s, seen ++ [id])
         | None => (s, seen)
         end.

  (** [rooms]/[except] are [None] when the Go pointer is nil (also for nil options,
      socket/adapter.go:270-275).  [orm] orders the target rooms, [oid r] the ids
      of room [r], [oall] the range over all sids. *)
  Definition apply_sockets (orm : order) (oid : room → order) (oall : order)
      (rooms except : option (gset room)) (s : S) : S * list sid :=
    let ex := except_sids (get_reg s) except in
    match rooms with
    | Some rs => if decide (0 < size rs) then foldl (visit_room oid ex) (s, []) (orm rs)
                 else foldl (visit_all ex) (s, []) (oall (dom (rg_sids (get_reg s))))
    | None => foldl (visit_all ex) (s, []) (oall (dom (rg_sids (get_reg s))))
    end.
End apply.
