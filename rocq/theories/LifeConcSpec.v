(** Vocabulary for the lifecycle of a socket under interleavings. *)
From Verif Require Import Base LifeConc.

(** A socket that is connected and whose admission is over; a socket whose middlewares have just finished. *)
Definition settled (s : lstate) : Prop := ls_connected s = true ∧ ls_can s = true ∧ ls_listed s = true ∧ ls_csock s = true ∧ ls_cnsp s = true.
Definition fresh (s : lstate) : Prop := ls_connected s = false ∧ ls_can s = true ∧ ls_listed s = false ∧ ls_csock s = false ∧ ls_cnsp s = false.
(** Fully closed. *)
Definition gone (s : lstate) : Prop := ls_connected s = false ∧ ls_can s = false ∧ ls_listed s = false ∧ ls_csock s = false ∧ ls_cnsp s = false.
(** The calls that close the socket; that admit it. *)
Definition closes (t : lcall) : Prop := match t with LcConnect _ _ | LcJoin _ | LcLeave _ => False | _ => True end.
Definition admits (t : lcall) : Prop := match t with LcConnect _ _ => True | _ => False end.
Global Instance closes_dec t : Decision (closes t).
Proof. destruct t; cbn; apply _. Defined.
(** Some Join call of the list names the room. *)
Definition joinable (ts : list lcall) (r : room) : Prop := ∃ rs, LcJoin rs ∈ ts ∧ r ∈ rs.
(** Some Join call has read canJoin and is about to add the room. *)
Definition joining (c : lconf) (r : room) : Prop := ∃ i rs, lf_calls c !! i = Some (LcJoin rs, QAdd) ∧ r ∈ rs.
(** All calls have returned. *)
Definition returned (c : lconf) : Prop := ∀ i t p, lf_calls c !! i = Some (t, p) → p = QDone.
(** The events of call [i], of all calls. *)
Definition events_of (i : nat) (c : lconf) : list lev := omap (λ e : nat * lev, if decide (e.1 = i) then Some e.2 else None) (lf_log c).
Definition is_life (e : lev) : bool := match e with VDisconnecting _ | VDisconnect _ => true | _ => false end.
(** Those among them that end the socket's life. *)
Definition endings (i : nat) (c : lconf) : list lev := filter (λ e, Is_true (is_life e)) (events_of i c).
Definition is_disconnect (e : lev) : bool := match e with VDisconnect _ => true | _ => false end.
Definition disconnects (c : lconf) : nat := length (filter (λ e, Is_true (is_disconnect e.2)) (lf_log c)).
(** What a closing call says when nothing else closes the socket and the connection was open. *)
Definition farewell (t : lcall) : list lev :=
  let ends r := [VDisconnecting r; VDisconnect r] in
  match t with
  | LcTransport r => ends r
  | LcPacket => ends "client namespace disconnect"
  | LcDisconnect | LcDisconnectAll | LcClient => VLeavePacket :: ends "server namespace disconnect"
  | LcShutdown => ends "server shutting down"
  | _ => []
  end.
