(** Model of the session-aware adapter's store: saved sessions, stored packets, periodic cleanup.
    Source: socket/session-aware-adapter.go.  Each function is one atomic step at a given time in
    milliseconds; the random packet ids (utils.YeastDate) are parameters. *)
From Coq Require Export ZArith.
From Verif Require Import Base GoTypes.

(** SessionToPersist, socket/adapter-type.go:48-54: Sid, Pid, Rooms, Data. *)
Record session := Session { se_sid : sid; se_pid : string; se_rooms : gset room; se_data : value }.
(** PersistedPacket, socket/adapter-type.go:56-61 *)
Record spacket := SPacket { sp_id : string; sp_at : Z; sp_data : list value; sp_opts : option bopts }.
(** The fields of session-aware-adapter.go:14-22; a session is stored with its DisconnectedAt. *)
Record store := Store {
  st_max : Z;                                (* maxDisconnectionDuration *)
  st_sessions : gmap string (session * Z);
  st_packets : list spacket
}.
Definition store0 (max : Z) : store := Store max ∅ [].

(** The periodic cleanup, session-aware-adapter.go:58-69.  [RangeAndSplice(.., true)] visits the
    packets from the last one and, at the first one for which the callback says true (index i),
    removes the packets 0..i. *)
Fixpoint splice_expired (threshold : Z) (ps : list spacket) : list spacket :=
  match ps with
  | [] => []
  | p :: ps' =>
      if existsb (λ q, (sp_at q <? threshold)%Z) ps' then splice_expired threshold ps'
      else if (sp_at p <? threshold)%Z then ps' else p :: ps'
  end.
Definition cleanup (now : Z) (s : store) : store :=
  let threshold := (now - st_max s)%Z in
  Store (st_max s) (filter (λ kv, ¬ (kv.2.2 < threshold)%Z) (st_sessions s)) (splice_expired threshold (st_packets s)).

(** PersistSession, session-aware-adapter.go:74-76. *)
Definition persist (now : Z) (x : session) (s : store) : store :=
  Store (st_max s) (<[se_pid x := (x, now)]> (st_sessions s)) (st_packets s).

(** shouldIncludePacket, session-aware-adapter.go:146-161.  [None]: nil pointer dereference
    (the options or one of the two sets are nil).  [keys] is sessionRooms.Keys() in some order. *)
Fixpoint include_loop (rs : gset room) (ex : option (gset room)) (keys : list room) (included notExcluded : bool) : option bool :=
  match keys with
  | [] => Some (included && notExcluded)
  | r :: keys =>
      if included && negb notExcluded then Some (included && notExcluded)
      else
        let included := if negb included && bool_decide (r ∈ rs) then true else included in
        if notExcluded then
          match ex with
          | None => None
          | Some e => include_loop rs ex keys included (if bool_decide (r ∈ e) then false else notExcluded)
          end
        else include_loop rs ex keys included notExcluded
  end.
Definition should_include (keys : list room) (opts : option bopts) : option bool :=
  match opts with
  | None => None
  | Some o => match bo_rooms o with
              | None => None
              | Some rs => include_loop rs (bo_except o) keys (bool_decide (size rs = 0)) true
              end
  end.

(** The result of RestoreSession: nil, a session with its missed packets, or a panic. *)
Inductive restored := RFresh | RSession (x : session) (missed : list (list value)) | RPanic.
(** The loop at session-aware-adapter.go:105-114. *)
Fixpoint missed_loop (keys : list room) (ps : list spacket) : option (list (list value)) :=
  match ps with
  | [] => Some []
  | p :: ps =>
      match should_include keys (sp_opts p) with
      | None => None
      | Some b => match missed_loop keys ps with None => None | Some l => Some (if b then sp_data p :: l else l) end
      end
  end.
(** FindIndex: the packets after the first one with the given id (session-aware-adapter.go:93-100). *)
Fixpoint after_offset (off : string) (ps : list spacket) : option (list spacket) :=
  match ps with
  | [] => None
  | p :: ps => if decide (sp_id p = off) then Some ps else after_offset off ps
  end.
(** RestoreSession, session-aware-adapter.go:78-122.  An expired session is deleted, a restored
    one is not. *)
Definition restore (o : order) (now : Z) (pid off : string) (s : store) : store * restored :=
  match st_sessions s !! pid with
  | None => (s, RFresh)
  | Some (x, t) =>
      if (t + st_max s <? now)%Z then (Store (st_max s) (delete pid (st_sessions s)) (st_packets s), RFresh)
      else match after_offset off (st_packets s) with
           | None => (s, RFresh)
           | Some ps => match missed_loop (o (se_rooms x)) ps with
                        | None => (s, RPanic)
                        | Some l => (s, RSession x l)
                        end
           end
  end.

(** A call of Broadcast: the packet's type, whether it has an id, its data, the options. *)
Record bcast := Bcast { bc_type : ptype; bc_ack : bool; bc_data : list value; bc_opts : option bopts }.
(** session-aware-adapter.go:125-129 *)
Definition storable (b : bcast) : bool :=
  bool_decide (bc_type b = EVENT) && negb (bc_ack b) &&
  match bc_opts b with
  | None => true
  | Some o => match bo_flags o with None => true | Some f => negb (fl_volatile f) end
  end.
(** Broadcast, session-aware-adapter.go:124-144: the new store and the data handed to the inner
    adapter's Broadcast.  [id] is utils.YeastDate(). *)
Definition sbroadcast (now : Z) (id : string) (b : bcast) (s : store) : store * list value :=
  if storable b then
    let data := bc_data b ++ [VStr id] in
    (Store (st_max s) (st_sessions s) (st_packets s ++ [SPacket id now data (bc_opts b)]), data)
  else (s, bc_data b).

(** Histories of the store: calls with their times. *)
Inductive sop :=
  | SPersist (x : session)
  | SBcast (id : string) (b : bcast)
  | SCleanup
  | SRestore (o : order) (pid off : string).
Definition sstep (e : Z * sop) (s : store) : store :=
  match e.2 with
  | SPersist x => persist e.1 x s
  | SBcast id b => (sbroadcast e.1 id b s).1
  | SCleanup => cleanup e.1 s
  | SRestore o pid off => (restore o e.1 pid off s).1
  end.
Definition srun (max : Z) (h : list (Z * sop)) : store := foldl (λ s e, sstep e s) (store0 max) h.
