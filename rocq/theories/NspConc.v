(** Model of the table of namespaces used by several goroutines: calls of Server.Of, and clients that connect to a namespace and leave
    it, interleave between any two operations on shared data.
    Source: socket/server.go:203-229 (_checkNamespace), 569-612 (Of with a string), socket/client.go:93-130 (connect, doConnect),
    socket/parent-namespace.go:77-103 (CreateChild), socket/namespace.go:267-303 (Add), 348-364 (_doConnect), 374-381 (Remove).
    [System.v] has the same functions as atomic steps.
    Simplifications: names begin with a slash; what the functions and regular expressions of the parents answer is an
    argument of the call; middlewares are one decision per client; handlers are not modelled. *)
From Verif Require Import Base.

(** A Namespace object: its name, the parent that created it, its sockets, whether its adapter was closed. *)
Record nobj := NObj { no_name : string; no_parent : option nat; no_socks : gset string; no_closed : bool }.

(** Program counters.  [k]: inside Of (true: the object is returned) or inside _checkNamespace (false: doConnect follows). *)
Inductive npc :=
  | PStart                                  (* Of: not begun; a client: before Load, client.go:94 *)
  | PCheck                                  (* server.go:205: the parents are asked *)
  | PReload (p : nat)                       (* server.go:212 *)
  | POf                                     (* server.go:584 *)
  | PAlloc (p : option nat) (k : bool)      (* NewNamespace, server.go:601, parent-namespace.go:79 *)
  | PAdd (p o : nat) (k : bool)             (* parent-namespace.go:85: children.Add *)
  | PStore (o : nat) (k : bool)             (* _nsps.Store, server.go:602, parent-namespace.go:98 *)
  | PEmit (o : nat) (k : bool)              (* new_namespace, server.go:604, parent-namespace.go:100 *)
  | PDenied                                 (* client.go:103: CONNECT_ERROR *)
  | PGot (o : nat)                          (* Of returned; a client: before _doConnect or _cleanup *)
  | PIn (o : nat)                           (* connected: namespace.go:350 done *)
  | PRemove (o : nat)                       (* namespace.go:375 *)
  | PLen (o : nat)                          (* parent-namespace.go:89 *)
  | PClose (o : nat)                        (* parent-namespace.go:91 *)
  | PDelete (o : nat)                       (* parent-namespace.go:92 *)
  | PUnchild (o : nat)                      (* parent-namespace.go:93 *)
  | PEnd.
(** A goroutine: a call of Of(name), or the life of a client: [nt_client] is the id of its socket and whether the middlewares accept
    it.  [nt_fn]: the parent whose function accepts the name (server.go:207); [nt_rx]: the parent whose regular
    expression matches it (server.go:587-594). *)
Record nthread := NThread { nt_name : string; nt_client : option (string * bool); nt_fn : option nat; nt_rx : option nat; nt_pc : npc }.
Record nstate := NState {
  n_table : gmap string nat;                (* _nsps *)
  n_objs : list nobj;
  n_children : gmap nat (gset nat);         (* children of each parent *)
  n_events : list nat;                      (* new_namespace *)
  n_threads : list nthread }.

Definition children (s : nstate) (p : nat) : gset nat := default ∅ (n_children s !! p).
Definition nset (s : nstate) (i : nat) (t : nthread) (pc : npc) : nstate :=
  NState (n_table s) (n_objs s) (n_children s) (n_events s) (<[i := NThread (nt_name t) (nt_client t) (nt_fn t) (nt_rx t) pc]> (n_threads s)).
Definition ntable (f : gmap string nat → gmap string nat) (s : nstate) : nstate := NState (f (n_table s)) (n_objs s) (n_children s) (n_events s) (n_threads s).
Definition nobjs (f : list nobj → list nobj) (s : nstate) : nstate := NState (n_table s) (f (n_objs s)) (n_children s) (n_events s) (n_threads s).
Definition nchildren (p : nat) (f : gset nat → gset nat) (s : nstate) : nstate :=
  NState (n_table s) (n_objs s) (<[p := f (children s p)]> (n_children s)) (n_events s) (n_threads s).
Definition nemit (o : nat) (s : nstate) : nstate := NState (n_table s) (n_objs s) (n_children s) (n_events s ++ [o]) (n_threads s).
Definition nsocks (f : gset string → gset string) (x : nobj) : nobj := NObj (no_name x) (no_parent x) (f (no_socks x)) (no_closed x).
Definition nclose (x : nobj) : nobj := NObj (no_name x) (no_parent x) (no_socks x) true.

Section nstep.
  (** CleanupEmptyChildNamespaces *)
  Context (cleanup : bool).
  Definition nstep (s : nstate) (i : nat) : nstate :=
    match n_threads s !! i with
    | None => s
    | Some t =>
        let go := nset s i t in
        let n := nt_name t in
        match nt_pc t with
        | PStart =>
            match nt_client t, n_table s !! n with
            | Some _, Some _ => go POf
            | Some _, None => go PCheck
            | None, Some o => go (PGot o)
            | None, None => go (PAlloc (nt_rx t) true)
            end
        | PCheck => match nt_fn t with Some p => go (PReload p) | None => go PDenied end
        | PReload p => match n_table s !! n with Some _ => go POf | None => go (PAlloc (Some p) false) end
        | POf => match n_table s !! n with Some o => go (PGot o) | None => go (PAlloc (nt_rx t) true) end
        | PAlloc p k =>
            let o := length (n_objs s) in
            nset (nobjs (λ l, l ++ [NObj n p ∅ false]) s) i t (match p with Some p => PAdd p o k | None => PStore o k end)
        | PAdd p o k => nset (nchildren p (λ c, {[o]} ∪ c) s) i t (PStore o k)
        | PStore o k => nset (ntable (insert n o) s) i t (PEmit o k)
        | PEmit o k =>
            nset (if bool_decide (n = "/") && bool_decide (n_objs s !! o ≫= no_parent = None) then s else nemit o s) i t (if k then PGot o else POf)
        | PGot o =>
            match nt_client t with
            | Some (id, true) => nset (nobjs (alter (nsocks (λ x, {[id]} ∪ x)) o) s) i t (PIn o)
            | Some (_, false) => go (PRemove o)
            | None => s
            end
        | PIn o => go (PRemove o)
        | PRemove o =>
            match nt_client t with
            | Some (id, _) => nset (nobjs (alter (nsocks (λ x, x ∖ {[id]})) o) s) i t (PLen o)
            | None => s
            end
        | PLen o =>
            match n_objs s !! o with
            | Some x => if cleanup && bool_decide (is_Some (no_parent x)) && bool_decide (no_socks x = ∅) then go (PClose o) else go PEnd
            | None => go PEnd
            end
        | PClose o => nset (nobjs (alter nclose o) s) i t (PDelete o)
        | PDelete o => nset (ntable (delete n) s) i t (PUnchild o)
        | PUnchild o =>
            match n_objs s !! o ≫= no_parent with
            | Some p => nset (nchildren p (λ c, c ∖ {[o]}) s) i t PEnd
            | None => go PEnd
            end
        | PDenied | PEnd => s
        end
    end.
  Definition nrun (s : nstate) (sched : list nat) : nstate := foldl nstep s sched.
End nstep.
(** A server without namespaces, and goroutines that have not begun. *)
Definition ninit (ts : list nthread) : nstate := NState ∅ [] ∅ [] ts.
