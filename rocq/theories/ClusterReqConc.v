(** Interleaving model of one request of the heartbeat adapter: its timer, responses and departures handled
    in overlapping goroutines.  Source: adapter/cluster-adapter-with-heartbeat.go:184-192, 248-253, 283-340.
    Granularity: one step per access to customRequests, Responses, MissingUids, the timer, or per callback
    call; each of these is atomic (types.Map, types.Set, types.Slice lock internally). *)
From Verif Require Import Base GoTypes ClusterReq.

Inductive rthread :=
  | TAnswer (u : string) (l : list value)      (* OnResponse from u, carrying l *)
  | TLeave (u : string)                        (* removeNode(u) *)
  | TTimeout.                                  (* the SetTimeout of the request *)
Inductive rpc := RLoad | RFired | RPush | RDelete | RCheck | RClear | RResolve | RUnstore | RDone.
(** [rs_present]: the entry in customRequests; [rs_cleared]: ClearTimeout was called. *)
Record rshared := RShared { rs_present : bool; rs_missing : gset string; rs_resp : list value; rs_calls : list ccall; rs_cleared : bool }.

(** One step of one goroutine; [isf]: a FetchSockets request, whose timeout reports no responses. *)
Definition rstep1 (isf : bool) (t : rthread) (p : rpc) (s : rshared) : rpc * rshared :=
  match p with
  | RLoad =>
      match t with
      | TAnswer _ _ => (if rs_present s then RPush else RDone, s)
      | TLeave _ => (if rs_present s then RDelete else RDone, s)
      | TTimeout => (if rs_cleared s then RDone else RFired, s)
      end
  | RFired => (if rs_present s then RResolve else RDone, s)
  | RPush => (RDelete, RShared (rs_present s) (rs_missing s) (rs_resp s ++ match t with TAnswer _ l => l | _ => [] end) (rs_calls s) (rs_cleared s))
  | RDelete => (RCheck, RShared (rs_present s) (rs_missing s ∖ match t with TAnswer u _ | TLeave u => {[u]} | _ => ∅ end) (rs_resp s) (rs_calls s) (rs_cleared s))
  | RCheck => (if decide (rs_missing s = ∅) then RClear else RDone, s)
  | RClear => (RResolve, RShared (rs_present s) (rs_missing s) (rs_resp s) (rs_calls s) true)
  | RResolve =>
      (RUnstore, RShared (rs_present s) (rs_missing s) (rs_resp s)
         (rs_calls s ++ [match t with TTimeout => CalledErr (if isf then [] else rs_resp s) | _ => CalledOk (rs_resp s) end]) (rs_cleared s))
  | RUnstore => (RDone, RShared false (rs_missing s) (rs_resp s) (rs_calls s) (rs_cleared s))
  | RDone => (RDone, s)
  end.
(** A configuration, and a schedule: the numbers of the goroutines that move. *)
Definition rconf : Type := rshared * list (rthread * rpc).
Definition rstep (isf : bool) (c : rconf) (i : nat) : rconf :=
  match c.2 !! i with
  | Some (t, p) => let r := rstep1 isf t p c.1 in (r.2, <[i := (t, r.1)]> c.2)
  | None => c
  end.
Definition rinit (N : gset string) (local : list value) (ts : list rthread) : rconf :=
  (RShared true N local [] false, (λ t, (t, RLoad)) <$> ts).
Definition rrun (isf : bool) (N : gset string) (local : list value) (ts : list rthread) (sched : list nat) : rconf :=
  foldl (rstep isf) (rinit N local ts) sched.
