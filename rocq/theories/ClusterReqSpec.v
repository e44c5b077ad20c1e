(** Vocabulary for the statements about membership and requests. *)
From Verif Require Import Base GoTypes ClusterReq.

Definition hev_ok (e : hev) : Prop :=
  match e with HMessage _ o _ _ => order_ok o | HCheck _ on o => order_ok on ∧ order_ok o | _ => True end.

(** The last message of [u] in [h] came at time [t] and had content [m]. *)
Definition last_heard (h : list hev) (u : string) (t : Z) (m : cmessage) : Prop :=
  ∃ a o b, h = a ++ HMessage t o u m :: b ∧ ∀ t' o' m', HMessage t' o' u m' ∉ b.
(** [u] is a live member: another server whose last message is not a farewell, and no check since then
    found it silent for longer than the timeout. *)
Definition live (self : string) (timeout : Z) (h : list hev) (u : string) : Prop :=
  u ≠ self ∧ u ≠ "emitter" ∧ ∃ t m a o b, h = a ++ HMessage t o u m :: b ∧ (∀ t' o' m', HMessage t' o' u m' ∉ b) ∧ m ≠ MClose ∧
    ∀ t' on o', HCheck t' on o' ∈ b → (t' - t ≤ timeout)%Z.

(** Step [e], after the history [before], answers request [rid] for server [u], or takes [u] out. *)
Definition answers (rid : string) (e : hev) (u : string) : Prop := ∃ l, e = HResponse u (RSockets rid l) ∨ e = HResponse u (REmitted rid l).
Definition departs (self : string) (timeout : Z) (before : list hev) (e : hev) (u : string) : Prop :=
  (∃ t o, e = HMessage t o u MClose ∧ u ≠ self) ∨
  (∃ t on o t0 m, e = HCheck t on o ∧ last_heard before u t0 m ∧ (timeout < t - t0)%Z).
(** During [a], after [before], server [u] answered request [rid] or left. *)
Definition settled (self : string) (timeout : Z) (rid : string) (before a : list hev) (u : string) : Prop :=
  ∃ a1 e a2, a = a1 ++ e :: a2 ∧ (answers rid e u ∨ departs self timeout (before ++ a1) e u).
(** Everything that came in for request [rid]. *)
Definition gathered (rid : string) (a : list hev) : list value :=
  concat (omap (λ e, match e with
    | HResponse _ (RSockets i l) => if decide (i = rid) then Some l else None
    | HResponse _ (REmitted i args) => if decide (i = rid) then Some [VArr args] else None
    | _ => None end) a).
(** The calls of callback [cb]. *)
Definition calls_of (s : hstate) (cb : nat) : list ccall := omap (λ c, if decide (c.1 = cb) then Some c.2 else None) (bs_calls (hb_base s)).

(** Request ids and callbacks are not reused: [e] is the only request of [h1 ++ e :: h2] with its id or its callback. *)
Definition req_of (e : hev) : option (nat * string) :=
  match e with HFetch _ cb rid _ => Some (cb, rid) | HEmit cb rid => Some (cb, rid) | HBroadcastAck cb rid => Some (cb, rid) | _ => None end.
Definition fresh_request (h1 : list hev) (e : hev) (h2 : list hev) : Prop :=
  ∀ e' cb rid cb' rid', e' ∈ h1 ++ h2 → req_of e = Some (cb, rid) → req_of e' = Some (cb', rid') → cb' ≠ cb ∧ rid' ≠ rid.
