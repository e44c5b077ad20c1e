(** Interleaving model of the room tables: AddAll, Del and DelAll on several goroutines.
    Source: socket/adapter.go:93-137.
    Granularity: one step per operation on a types.Map or on a types.Set, each of which locks internally.
    The sets are shared by pointer: a set is created for one key of one table, so a pointer is the key and a
    number that is never used twice.  The events emitted are not modelled here (see Rooms.v). *)
From Verif Require Import Base Rooms.

(** [cv_sids], [cv_rooms]: the tables, giving the pointer for a key; [cv_srooms id k], [cv_members r k]: the
    contents of the sets. *)
Record cview := CView {
  cv_sids : gmap sid nat; cv_rooms : gmap room nat;
  cv_srooms : sid → nat → gset room; cv_members : room → nat → gset sid; cv_next : nat }.
Definition upd (f : string → nat → gset string) (x : string) (k : nat) (v : gset string) : string → nat → gset string :=
  λ y j, if decide (y = x ∧ j = k) then v else f y j.
(** The two views of membership: adapter.go:228-233 and 283. *)
Definition conc_rooms_of (s : cview) (id : sid) : gset room := match cv_sids s !! id with Some k => cv_srooms s id k | None => ∅ end.
Definition conc_members (s : cview) (r : room) : gset sid := match cv_rooms s !! r with Some k => cv_members s r k | None => ∅ end.

(** The calls. [rooms]: rooms.Keys() of the argument. *)
Inductive rcall := RcAdd (id : sid) (rooms : list room) | RcDel (id : sid) (r : room) | RcDelAll (id : sid).
Inductive rcpc :=
  | PStart                                         (* sids.LoadOrStore or sids.Load: adapter.go:94, 110, 131 *)
  | PMark (k : nat) (r : room) (rest : list room)   (* _rooms.Add(room): 96 *)
  | PGet (k : nat) (r : room) (rest : list room)    (* rooms.LoadOrStore: 97 *)
  | PHas (k q : nat) (r : room) (rest : list room)  (* ids.Has(id): 101 *)
  | PAdd (k q : nat) (r : room) (rest : list room)  (* ids.Add(id): 102 *)
  | PUnmark (k : nat) (r : room)                   (* rooms.Delete(room): 111 *)
  | PKeys (k : nat)                                (* rooms.Keys(): 132 *)
  | PLoad (r : room) (rest : list room)             (* rooms.Load: 117 *)
  | PTake (q : nat) (r : room) (rest : list room)   (* ids.Delete(id): 118 *)
  | PLen (q : nat) (r : room) (rest : list room)    (* ids.Len(): 121 *)
  | PDrop (r : room) (rest : list room)             (* rooms.LoadAndDelete: 122 *)
  | PEnd                                           (* sids.Delete(id): 135 *)
  | PDone.
Definition rc_id (t : rcall) : sid := match t with RcAdd id _ | RcDel id _ | RcDelAll id => id end.
(** The next room of the loop of AddAll, and of the callers of _del. *)
Definition next_add (k : nat) (rest : list room) : rcpc := match rest with [] => PDone | r :: rest => PMark k r rest end.
Definition next_del (t : rcall) (rest : list room) : rcpc :=
  match rest with r :: rest => PLoad r rest | [] => match t with RcDelAll _ => PEnd | _ => PDone end end.

(** One step of a call; [o]: the order of Keys(). *)
Definition rc_step1 (o : order) (t : rcall) (p : rcpc) (s : cview) : rcpc * cview :=
  let id := rc_id t in
  match p with
  | PStart =>
      match t, cv_sids s !! id with
      | RcAdd _ R, Some k => (next_add k R, s)
      | RcAdd _ R, None => (next_add (cv_next s) R,
          CView (<[id := cv_next s]> (cv_sids s)) (cv_rooms s) (upd (cv_srooms s) id (cv_next s) ∅) (cv_members s) (S (cv_next s)))
      | RcDel _ r, Some k => (PUnmark k r, s)
      | RcDel _ r, None => (PLoad r [], s)
      | RcDelAll _, Some k => (PKeys k, s)
      | RcDelAll _, None => (PDone, s)
      end
  | PMark k r rest => (PGet k r rest, CView (cv_sids s) (cv_rooms s) (upd (cv_srooms s) id k ({[r]} ∪ cv_srooms s id k)) (cv_members s) (cv_next s))
  | PGet k r rest =>
      match cv_rooms s !! r with
      | Some q => (PHas k q r rest, s)
      | None => (PHas k (cv_next s) r rest,
          CView (cv_sids s) (<[r := cv_next s]> (cv_rooms s)) (cv_srooms s) (upd (cv_members s) r (cv_next s) ∅) (S (cv_next s)))
      end
  | PHas k q r rest => (if decide (id ∈ cv_members s r q) then next_add k rest else PAdd k q r rest, s)
  | PAdd k q r rest => (next_add k rest, CView (cv_sids s) (cv_rooms s) (cv_srooms s) (upd (cv_members s) r q ({[id]} ∪ cv_members s r q)) (cv_next s))
  | PUnmark k r => (PLoad r [], CView (cv_sids s) (cv_rooms s) (upd (cv_srooms s) id k (cv_srooms s id k ∖ {[r]})) (cv_members s) (cv_next s))
  | PKeys k => (next_del t (o (cv_srooms s id k)), s)
  | PLoad r rest => (match cv_rooms s !! r with Some q => PTake q r rest | None => next_del t rest end, s)
  | PTake q r rest => (PLen q r rest, CView (cv_sids s) (cv_rooms s) (cv_srooms s) (upd (cv_members s) r q (cv_members s r q ∖ {[id]})) (cv_next s))
  | PLen q r rest => (if decide (cv_members s r q = ∅) then PDrop r rest else next_del t rest, s)
  | PDrop r rest => (next_del t rest, CView (cv_sids s) (delete r (cv_rooms s)) (cv_srooms s) (cv_members s) (cv_next s))
  | PEnd => (PDone, CView (delete id (cv_sids s)) (cv_rooms s) (cv_srooms s) (cv_members s) (cv_next s))
  | PDone => (PDone, s)
  end.
(** A configuration; a schedule names the calls that move. *)
Definition rcconf : Type := cview * list (rcall * rcpc).
Definition rc_step (o : order) (c : rcconf) (i : nat) : rcconf :=
  match c.2 !! i with
  | Some (t, p) => let x := rc_step1 o t p c.1 in (x.2, <[i := (t, x.1)]> c.2)
  | None => c
  end.
(** The tables before the calls. *)
Definition view_of (g : registry) : cview :=
  CView ((λ _, 0) <$> rg_sids g) ((λ _, 0) <$> rg_rooms g) (λ id k, if decide (k = 0) then rooms_of g id else ∅)
        (λ r k, if decide (k = 0) then members_of g r else ∅) 1.
Definition rc_run (o : order) (g : registry) (ts : list rcall) (sched : list nat) : rcconf :=
  foldl (rc_step o) (view_of g, (λ t, (t, PStart)) <$> ts) sched.
