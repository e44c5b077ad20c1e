(** Vocabulary for the statements about acknowledgements. *)
From Verif Require Import Base GoTypes Acks.

(** *** Histories of non-overlapping handlers *)
(** Emissions with acknowledgement in a history; those on namespace [n]. *)
Definition ev_emits (e : aevent) : bool := match e with EvEmit _ _ | EvBroadcast _ _ => true | _ => false end.
Definition ev_emits_on (n : nat) (e : aevent) : bool :=
  match e with EvEmit k _ => bool_decide (k.1 = n) | EvBroadcast m _ => bool_decide (m = n) | _ => false end.
Definition n_emits (es : list aevent) : nat := length (filter (λ e, ev_emits e = true) es).
Definition n_emits_on (n : nat) (es : list aevent) : nat := length (filter (λ e, ev_emits_on n e = true) es).

(** The first event that answers emission [cb], made on socket [k] with packet id [id]:
    a reply on that socket with that id, or (with a timeout) the expiry of its timer. *)
Fixpoint first_answer (k : nat * nat) (id : N) (cb : nat) (tmo : bool) (es : list aevent) : option (option (list value)) :=
  match es with
  | [] => None
  | EvRecv k' (Some id') args :: es => if decide (k' = k ∧ id' = id) then Some (Some args) else first_answer k id cb tmo es
  | EvExpire cb' :: es => if decide (cb' = cb ∧ tmo = true) then Some None else first_answer k id cb tmo es
  | _ :: es => first_answer k id cb tmo es
  end.

(** *** Arbitrary schedules *)
(** ACK packets received on socket [k] with id [id]. *)
Definition recv_of (k : nat * nat) (id : N) (l : alabel) : bool :=
  match l with LRecv k' (Some id') _ => bool_decide (k' = k ∧ id' = id) | _ => false end.
Definition n_recv (k : nat * nat) (id : N) (ls : list alabel) : nat := length (filter (λ l, recv_of k id l = true) ls).
(** Calls of the callback of emission [cb]. *)
Definition calls_of (cb : nat) (s : ast) : list acall := filter (λ c, c_cb c = cb) (a_calls s).
(** The emissions of a schedule: namespace, sockets, timeout. *)
Definition label_emission (l : alabel) : option (nat * list (nat * nat) * bool) :=
  match l with
  | LEmit k tmo => Some (k.1, [k], tmo)
  | LBroadcast n ks => Some (n, pair n <$> ks, false)
  | _ => None
  end.
Definition emission_desc (em : aemission) : nat * list (nat * nat) * bool := (em_nsp em, em_socks em, em_timeout em).
(** Nothing is running: every goroutine has finished, no timer is armed. *)
Definition quiet (s : ast) : Prop := a_armed s = ∅ ∧ ∀ t x, a_thr s !! t = Some x → x = None.
