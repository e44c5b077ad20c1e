(** Interleaving model of the selection of sockets by the in-memory adapter (apply), which carries out every
    broadcast, fetch and bulk operation, while sockets join and leave rooms, connect and disconnect.
    Source: socket/adapter.go:269-315; joins and leaves are those of [RoomsConc.v].
    Granularity: one step per operation on a types.Map or a types.Set that other goroutines use, and one per
    call of the callback; the sets ids and exceptSids are local.  What the callback does to the rooms (Join,
    Leave, Disconnect) are room calls of the configuration, which the schedule may place right after it.
    Simplification: the table of sockets is the set of its keys. *)
From Verif Require Import Base Rooms RoomsConc.

(** Range over a types.Map (sync.Map): no key is visited twice; a visited key was present at some time
    during the call; a key present all the time is visited.  [rg_seen]: present at some time; [rg_stable]:
    present all the time. *)
Record rangest := RangeSt { rg_seen : gset sid; rg_stable : gset sid; rg_visited : gset sid }.

(** [ids], [exc]: the local sets. *)
Inductive apc :=
  | AStart                                                                         (* 270-277 *)
  | AExcLoad (r : room) (todo : list room) (exc : gset sid)                          (* a.rooms.Load: 310 *)
  | AExcKeys (r : room) (q : nat) (todo : list room) (exc : gset sid)                (* ids.Keys(): 311 *)
  | ABegin (exc : gset sid)                                                         (* 280, or the start of Range: 295 *)
  | ALoad (r : room) (todo : list room) (ids exc : gset sid)                         (* a.rooms.Load: 283 *)
  | AKeys (r : room) (q : nat) (todo : list room) (ids exc : gset sid)               (* _ids.Keys(): 284 *)
  | ALook (id : sid) (keys : list sid) (todo : list room) (ids exc : gset sid)       (* a.nsp.Sockets().Load: 288 *)
  | ACall (id : sid) (keys : list sid) (todo : list room) (ids exc : gset sid)       (* callback, ids.Add: 289-290 *)
  | ARange (rg : rangest) (exc : gset sid)                                           (* between two visits of Range *)
  | ARLook (id : sid) (rg : rangest) (exc : gset sid)                                (* a.nsp.Sockets().Load: 299 *)
  | ARCall (id : sid) (rg : rangest) (exc : gset sid)                                (* callback: 300 *)
  | ADone.

(** [ac_hits]: the sockets the callback was called with, in order. *)
Record aconf := AConf { ac_rooms : rcconf; ac_socks : gset sid; ac_pc : apc; ac_hits : list sid }.
Inductive alabel :=
  | ARoom (i : nat)                  (* the i-th join or leave moves *)
  | AListed (id : sid) (b : bool)      (* a socket is stored in the table of the namespace, or deleted from it *)
  | AMove (k : option sid).          (* apply moves; in Range: to this key, or to the end *)

Section apply.
  (** The rooms and exclusions of the options (nil is empty), and the orders of their Keys(), of the Keys()
      of a room, and of the Keys() in the joins and leaves. *)
  Context (rooms except : gset room) (orm oex : order) (oid : room → order) (o : order).

  Definition next_exc (todo : list room) (exc : gset sid) : apc :=
    match todo with [] => ABegin exc | r :: todo => AExcLoad r todo exc end.
  Definition next_room (todo : list room) (ids exc : gset sid) : apc :=
    match todo with [] => ADone | r :: todo => ALoad r todo ids exc end.
  (** The loop over the ids of a room up to the next lookup, adapter.go:284-288. *)
  Fixpoint next_id (keys : list sid) (todo : list room) (ids exc : gset sid) : apc :=
    match keys with
    | [] => next_room todo ids exc
    | id :: keys => if decide (id ∈ ids ∨ id ∈ exc) then next_id keys todo ids exc else ALook id keys todo ids exc
    end.
  Definition range_visit (id : sid) (rg : rangest) : rangest := RangeSt (rg_seen rg) (rg_stable rg) ({[id]} ∪ rg_visited rg).

  (** One step of apply. [s]: the tables; [socks]: the keys of the table of sockets. *)
  Definition a_step1 (k : option sid) (p : apc) (s : cview) (socks : gset sid) : apc * list sid :=
    match p with
    | AStart => (next_exc (oex except) ∅, [])
    | AExcLoad r todo exc => (match cv_rooms s !! r with Some q => AExcKeys r q todo exc | None => next_exc todo exc end, [])
    | AExcKeys r q todo exc => (next_exc todo (exc ∪ cv_members s r q), [])
    | ABegin exc => (if decide (rooms = ∅) then ARange (RangeSt (dom (cv_sids s)) (dom (cv_sids s)) ∅) exc else next_room (orm rooms) ∅ exc, [])
    | ALoad r todo ids exc => (match cv_rooms s !! r with Some q => AKeys r q todo ids exc | None => next_room todo ids exc end, [])
    | AKeys r q todo ids exc => (next_id (oid r (cv_members s r q)) todo ids exc, [])
    | ALook id keys todo ids exc => (if decide (id ∈ socks) then ACall id keys todo ids exc else next_id keys todo ids exc, [])
    | ACall id keys todo ids exc => (next_id keys todo ({[id]} ∪ ids) exc, [id])
    | ARange rg exc =>
        (match k with
         | Some id =>
             if decide (id ∈ rg_seen rg ∧ id ∉ rg_visited rg)
             then (if decide (id ∈ exc) then ARange (range_visit id rg) exc else ARLook id (range_visit id rg) exc)
             else p
         | None => if decide (rg_stable rg ⊆ rg_visited rg) then ADone else p
         end, [])
    | ARLook id rg exc => (if decide (id ∈ socks) then ARCall id rg exc else ARange rg exc, [])
    | ARCall id rg exc => (ARange rg exc, [id])
    | ADone => (ADone, [])
    end.
  (** What a Range sees of a change of the table. *)
  Definition range_sees (s : cview) (p : apc) : apc :=
    let see rg := RangeSt (rg_seen rg ∪ dom (cv_sids s)) (rg_stable rg ∩ dom (cv_sids s)) (rg_visited rg) in
    match p with
    | ARange rg exc => ARange (see rg) exc
    | ARLook id rg exc => ARLook id (see rg) exc
    | ARCall id rg exc => ARCall id (see rg) exc
    | _ => p
    end.
  Definition a_step (c : aconf) (l : alabel) : aconf :=
    match l with
    | ARoom i => let rc := rc_step o (ac_rooms c) i in AConf rc (ac_socks c) (range_sees rc.1 (ac_pc c)) (ac_hits c)
    | AListed id b => AConf (ac_rooms c) (if b then {[id]} ∪ ac_socks c else ac_socks c ∖ {[id]}) (ac_pc c) (ac_hits c)
    | AMove k => let x := a_step1 k (ac_pc c) (ac_rooms c).1 (ac_socks c) in
                 AConf (ac_rooms c) (ac_socks c) x.1 (ac_hits c ++ x.2)
    end.
  (** apply is called when the rooms are as in [rc] (with joins and leaves under way) and [socks] are listed. *)
  Definition a_run (rc : rcconf) (socks : gset sid) (ls : list alabel) : aconf := foldl a_step (AConf rc socks AStart []) ls.
End apply.
