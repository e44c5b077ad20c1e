(** Vocabulary for the statements about the store of the session-aware adapter under concurrency. *)
From Verif Require Import Base GoTypes Session SessionSpec SessionConc.

(** A packet concerns a socket that is in the rooms [rooms]. *)
Definition p_concerns (rooms : gset room) (p : spacket) : Prop :=
  match sp_opts p with
  | Some (BOpts (Some rs) (Some ex) _) => (rs = ∅ ∨ ∃ r, r ∈ rs ∧ r ∈ rooms) ∧ ¬ ∃ r, r ∈ ex ∧ r ∈ rooms
  | _ => False
  end.
#[global] Instance p_concerns_dec rooms p : Decision (p_concerns rooms p).
Proof. unfold p_concerns. destruct (sp_opts p) as [[[rs|] [ex|] f]|]; apply _. Defined.
Definition p_proper (opts : option bopts) : Prop := ∃ rs ex f, opts = Some (BOpts (Some rs) (Some ex) f).

(** The start: calls about to be made; identifiers are distinct; options have both sets (as all emissions of the public API);
    iteration orders are admissible. *)
Definition q_fresh (t : qthread) : Prop :=
  match t with
  | QBcast _ b pc => pc = QB0 ∧ p_proper (bc_opts b)
  | QRestore o _ _ pc => pc = QR0 ∧ order_ok o
  | QPersist _ pc => pc = QP0
  | QCleanup _ pc => pc = QC0
  end.
Definition q_start (ps : list spacket) (ts : list qthread) : Prop :=
  Forall q_fresh ts ∧ Forall (λ p, p_proper (sp_opts p)) ps ∧ NoDup (sp_id <$> ps) ∧
  (∀ i id b, ts !! i = Some (QBcast id b QB0) → id ∉ sp_id <$> ps) ∧
  (∀ i j id b b', ts !! i = Some (QBcast id b QB0) → ts !! j = Some (QBcast id b' QB0) → i = j).

(** Broadcast [i] is in the store, or was. *)
Definition q_in_store (s : qstate) (i : nat) : Prop :=
  ∃ id b pc, q_threads s !! i = Some (QBcast id b pc) ∧ recoverable b ∧ (pc = QBsend ∨ pc = QBdone).
(** [p] is the packet of broadcast [i], emitted at some time. *)
Definition q_packet_of (s : qstate) (i : nat) (p : spacket) : Prop :=
  ∃ id b pc t, q_threads s !! i = Some (QBcast id b pc) ∧ p = SPacket id t (bc_data b ++ [VStr id]) (bc_opts b).
(** A restoration or a cleanup is dealing with the session of [pid], or another session is being saved for it. *)
Definition q_busy (pid : string) (t : qthread) : Prop :=
  match t with
  | QRestore _ pid' _ (QRtest _ _) | QRestore _ pid' _ QRdelete => pid' = pid
  | QCleanup _ (QCdelete _ k _) => k = pid
  | QPersist x QP0 | QPersist x (QPstore _) => se_pid x = pid
  | _ => False
  end.

(** The packets that the broadcasts of a schedule push, in the order of their pushes. *)
Fixpoint q_log (max : Z) (s : qstate) (sched : list (nat * Z)) : list spacket :=
  match sched with
  | [] => []
  | e :: rest =>
      match q_threads s !! e.1 with
      | Some (QBcast id b (QBpush t)) => [SPacket id t (bc_data b ++ [VStr id]) (bc_opts b)]
      | _ => []
      end ++ q_log max (qstep max s e) rest
  end.

(** What a broadcast hands to the inner adapter. *)
Definition q_handed (id : string) (b : bcast) : list value := if decide (recoverable b) then bc_data b ++ [VStr id] else bc_data b.
(** The broadcasts that returned. *)
Definition q_returned (ts : list qthread) : list (list value) :=
  omap (λ t, match t with QBcast id b QBdone => Some (q_handed id b) | _ => None end) ts.
