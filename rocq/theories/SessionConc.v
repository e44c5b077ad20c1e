(** Model of the store of the session-aware adapter used by several goroutines: broadcasts, saved sessions, restorations and the
    periodic cleanup interleave between any two operations on shared data.
    Source: socket/session-aware-adapter.go:58-144.  Operations of types.Map and types.Slice are atomic (each takes the lock of
    the container); [Session.v] has the same functions as atomic steps. *)
From Verif Require Import Base GoTypes Session.

(** Broadcast, session-aware-adapter.go:124-144: the identifier is fresh; the clock is read before the packet is pushed
    (137); then the inner adapter's Broadcast (143). *)
Inductive qbpc := QB0 | QBpush (t : Z) | QBsend | QBdone.
(** RestoreSession, 78-122: Load (79); the clock (85); Delete of an expired session (88); FindIndex (93); Len, for make (103);
    the condition of the loop (106), Get (107). *)
Inductive qrpc :=
  | QR0 | QRtest (x : session) (t : Z) | QRdelete | QRfind (x : session) | QRmake (x : session) (index : nat)
  | QRloop (x : session) (i : nat) (acc : list (list value)) | QRget (x : session) (i : nat) (acc : list (list value))
  | QRdone (r : restored).
(** PersistSession, 74-76. *)
Inductive qppc := QP0 | QPstore (t : Z) | QPdone.
(** The callback of the timer, 58-69: the threshold (59); Range over the sessions: visit of a key, Delete of an expired one (60-65);
    RangeAndSplice (66-68). *)
Inductive qcpc := QC0 | QCvisit (th : Z) (todo : list string) | QCdelete (th : Z) (pid : string) (todo : list string) | QCsplice (th : Z) | QCdone.

Inductive qthread :=
  | QBcast (id : string) (b : bcast) (pc : qbpc)
  | QRestore (o : order) (pid off : string) (pc : qrpc)
  | QPersist (x : session) (pc : qppc)
  | QCleanup (keys : list string) (pc : qcpc).      (* keys: those that Range visits, any *)

(** The fields of the adapter; ghosts: all packets ever pushed, how many were removed, what was handed to the inner adapter. *)
Record qstate := QState {
  q_sessions : gmap string (session * Z);
  q_packets : list spacket;
  q_pushed : list spacket;
  q_removed : nat;
  q_sent : list (list value);
  q_threads : list qthread }.

Definition qset (s : qstate) (i : nat) (t : qthread) : qstate :=
  QState (q_sessions s) (q_packets s) (q_pushed s) (q_removed s) (q_sent s) (<[i := t]> (q_threads s)).
Definition qsessions (f : gmap string (session * Z) → gmap string (session * Z)) (s : qstate) : qstate :=
  QState (f (q_sessions s)) (q_packets s) (q_pushed s) (q_removed s) (q_sent s) (q_threads s).
Definition qpush (p : spacket) (s : qstate) : qstate :=
  QState (q_sessions s) (q_packets s ++ [p]) (q_pushed s ++ [p]) (q_removed s) (q_sent s) (q_threads s).
Definition qsend (d : list value) (s : qstate) : qstate :=
  QState (q_sessions s) (q_packets s) (q_pushed s) (q_removed s) (q_sent s ++ [d]) (q_threads s).
Definition qsplice (th : Z) (s : qstate) : qstate :=
  let ps := splice_expired th (q_packets s) in
  QState (q_sessions s) ps (q_pushed s) (q_removed s + (length (q_packets s) - length ps)) (q_sent s) (q_threads s).

(** The data of a stored packet: the arguments and the identifier. *)
Definition qdata (id : string) (b : bcast) : list value := if storable b then bc_data b ++ [VStr id] else bc_data b.
(** FindIndex *)
Fixpoint find_index (off : string) (ps : list spacket) : option nat :=
  match ps with
  | [] => None
  | p :: ps => if decide (sp_id p = off) then Some 0 else S <$> find_index off ps
  end.

Section qstep.
  Context (max : Z).
  (** One step of thread [i] at time [now]. *)
  Definition qstep (s : qstate) (e : nat * Z) : qstate :=
    let '(i, now) := e in
    match q_threads s !! i with
    | None => s
    | Some (QBcast id b pc) =>
        match pc with
        | QB0 => qset s i (QBcast id b (if storable b then QBpush now else QBsend))
        | QBpush t => qset (qpush (SPacket id t (qdata id b) (bc_opts b)) s) i (QBcast id b QBsend)
        | QBsend => qset (qsend (qdata id b) s) i (QBcast id b QBdone)
        | QBdone => s
        end
    | Some (QRestore o pid off pc) =>
        let go pc' := qset s i (QRestore o pid off pc') in
        match pc with
        | QR0 => go (match q_sessions s !! pid with Some (x, t) => QRtest x t | None => QRdone RFresh end)
        | QRtest x t => go (if (t + max <? now)%Z then QRdelete else QRfind x)
        | QRdelete => qset (qsessions (delete pid) s) i (QRestore o pid off (QRdone RFresh))
        | QRfind x => go (match find_index off (q_packets s) with Some n => QRmake x n | None => QRdone RFresh end)
        | QRmake x n => go (if Nat.ltb n (length (q_packets s)) then QRloop x (S n) [] else QRdone RPanic)   (* makeslice: cap out of range *)
        | QRloop x n acc => go (if Nat.ltb n (length (q_packets s)) then QRget x n acc else QRdone (RSession x acc))
        | QRget x n acc =>
            go (match q_packets s !! n with
                | None => QRdone (RSession x acc)                                                               (* err: break *)
                | Some p => match should_include (o (se_rooms x)) (sp_opts p) with
                            | None => QRdone RPanic
                            | Some inc => QRloop x (S n) (if inc then acc ++ [sp_data p] else acc)
                            end
                end)
        | QRdone _ => s
        end
    | Some (QPersist x pc) =>
        match pc with
        | QP0 => qset s i (QPersist x (QPstore now))
        | QPstore t => qset (qsessions (insert (se_pid x) (x, t)) s) i (QPersist x QPdone)
        | QPdone => s
        end
    | Some (QCleanup ks pc) =>
        match pc with
        | QC0 => qset s i (QCleanup ks (QCvisit (now - max)%Z ks))
        | QCvisit th [] => qset s i (QCleanup ks (QCsplice th))
        | QCvisit th (k :: todo) =>
            qset s i (QCleanup ks (match q_sessions s !! k with
                                   | Some (_, t) => if (t <? th)%Z then QCdelete th k todo else QCvisit th todo
                                   | None => QCvisit th todo
                                   end))
        | QCdelete th k todo => qset (qsessions (delete k) s) i (QCleanup ks (QCvisit th todo))
        | QCsplice th => qset (qsplice th s) i (QCleanup ks QCdone)
        | QCdone => s
        end
    end.
  Definition qrun (s : qstate) (sched : list (nat * Z)) : qstate := foldl qstep s sched.
End qstep.
(** A store with sessions and packets, and calls about to be made. *)
Definition qinit (ses : gmap string (session * Z)) (ps : list spacket) (ts : list qthread) : qstate := QState ses ps ps 0 [] ts.
