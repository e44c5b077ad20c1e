(** Calls that run one after another: what the interleaving models of the room tables and of the store of sessions must then
    compute, stated with the functions of the sequential models. *)
From Verif Require Import Base GoTypes Rooms RoomsConc Session SessionConc.

(** A schedule of blocks: call [i] makes [n] steps, then the next block. *)
Definition one_by_one {A} (blocks : list (A * nat)) : list A := concat ((λ b, replicate b.2 b.1) <$> blocks).

(** ** The room tables *)
(** What the tables hold, without the pointers. *)
Definition contents (s : cview) : registry :=
  Registry (map_imap (λ r q, Some (cv_members s r q)) (cv_rooms s)) (map_imap (λ id k, Some (cv_srooms s id k)) (cv_sids s)).
(** The call as a single function. *)
Definition in_one (o : order) (t : rcall) (g : registry) : registry :=
  match t with
  | RcAdd id R => (add_all id R g).1
  | RcDel id r => (del true id r g).1
  | RcDelAll id => (del_all true o id g).1
  end.
Definition in_turn (o : order) (ts : list rcall) (g : registry) : registry := foldl (λ g t, in_one o t g) g ts.
(** The calls of the list have returned. *)
Definition all_returned (c : rcconf) (is : list nat) : Prop := Forall (λ i, ∃ t, c.2 !! i = Some (t, PDone)) is.

(** ** The store of sessions and packets *)
Definition untouched_call (t : qthread) : Prop :=
  match t with QBcast _ _ pc => pc = QB0 | QRestore _ _ _ pc => pc = QR0 | QPersist _ pc => pc = QP0 | QCleanup _ pc => pc = QC0 end.
Definition ended_call (t : qthread) : Prop :=
  match t with
  | QBcast _ _ pc => pc = QBdone | QRestore _ _ _ pc => ∃ r, pc = QRdone r
  | QPersist _ pc => pc = QPdone | QCleanup _ pc => pc = QCdone
  end.
Definition operation (t : qthread) : sop :=
  match t with QBcast id b _ => SBcast id b | QRestore o pid off _ => SRestore o pid off | QPersist x _ => SPersist x | QCleanup _ _ => SCleanup end.
(** The store after the calls, each at its time. *)
Definition store_after (s : store) (h : list (Z * sop)) : store := foldl (λ s e, sstep e s) s h.
Fixpoint handed (s : store) (h : list (Z * sop)) : list (list value) :=
  match h with
  | [] => []
  | e :: h => match e.2 with SBcast id b => [(sbroadcast e.1 id b s).2] | _ => [] end ++ handed (sstep e s) h
  end.
(** The calls of the blocks, with their times. *)
Definition calls_of (ts : list qthread) (blocks : list ((nat * Z) * nat)) : list (Z * sop) :=
  omap (λ b, (λ t, (b.1.2, operation t)) <$> ts !! b.1.1) blocks.
(** The Range of a cleanup visits every session there may be. *)
Definition visits_all (ses : gmap string (session * Z)) (ts : list qthread) : Prop :=
  ∀ ks pc pid, QCleanup ks pc ∈ ts → (is_Some (ses !! pid) ∨ ∃ x pc', QPersist x pc' ∈ ts ∧ se_pid x = pid) → pid ∈ ks.
Definition all_ended (s : qstate) (is : list nat) : Prop := Forall (λ i, ∃ t, q_threads s !! i = Some t ∧ ended_call t) is.
Definition state_store (max : Z) (s : qstate) : store := Store max (q_sessions s) (q_packets s).
