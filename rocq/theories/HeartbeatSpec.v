(** Vocabulary for the statements about the membership of a whole cluster. *)
From Verif Require Import Base GoTypes ClusterReq Heartbeat.

Definition mev_ok (e : mev) : Prop :=
  match e with EDeliver _ o => order_ok o | ECheck _ on o => order_ok on ∧ order_ok o | _ => True end.

(** Server [v] counts [u] as a member of the cluster. *)
Definition counts (s : mstate) (v u : string) : Prop := ∃ n, ms_nodes s !! v = Some n ∧ u ∈ dom (hb_nodes (mn_h n)).

(** [d] may pass in [s]: no armed heartbeat timer gets later than [late] after it is due, and no message
    stays longer than [delay] on its way. *)
Definition prompt (late delay : Z) (s : mstate) (d : Z) : Prop :=
  (∀ u n due, ms_nodes s !! u = Some n → mn_timer n = TmArmed due → (ms_now s + d ≤ due + late)%Z) ∧
  (∀ f, f ∈ ms_net s → (ms_now s + d ≤ fl_sent f + delay)%Z).
Definition timely (interval timeout : Z) (revive : bool) (late delay : Z) (s0 : mstate) (h : list mev) : Prop :=
  ∀ a d b s, h = a ++ ETick d :: b → mrun interval timeout revive s0 a = Some s → prompt late delay s d.

(** During [h], starting in [s0], server [u] hands no message to the transport. *)
Definition says_nothing (interval timeout : Z) (revive : bool) (s0 : mstate) (h : list mev) (u : string) : Prop :=
  ∀ a e b s s', h = a ++ e :: b → mrun interval timeout revive s0 a = Some s → mstep interval timeout revive s e = Some s' →
  ∀ f, f ∈ ms_net s' → fl_from f = u → f ∈ ms_net s.
(** During [h], nobody uses the adapter of [u], and no INITIAL_HEARTBEAT reaches it. *)
Definition left_alone (interval timeout : Z) (revive : bool) (s0 : mstate) (h : list mev) (u : string) : Prop :=
  EInit u ∉ h ∧ ERequest u ∉ h ∧ EBase u ∉ h ∧ EClose u ∉ h ∧
  ∀ a i o b s f, h = a ++ EDeliver i o :: b → mrun interval timeout revive s0 a = Some s → ms_net s !! i = Some f →
    fl_to f = u → fl_msg f ≠ MInitial.
