(** Calls of the interleaving model of the lifecycle (LifeConc.v) made in turn, and operations of the server (System.v): what corresponds
    to what (C67). *)
From Verif Require Import Base GoTypes Rooms Adapter System SystemSpec LifeConc.

(** What the interleaving model keeps of socket [k]. *)
Definition life_of (x : core) (k : nat) : lstate :=
  match c_socks x !! k with
  | Some a => LState (is_open x (sk_client a)) (sk_connected a) (sk_can_join a) (rooms_sock x k)
      (bool_decide (socks_of x (sk_nsp a) !! sk_id a = Some k)) (bool_decide (csocks_of x (sk_client a) !! sk_id a = Some k))
      (bool_decide (cnsps_of x (sk_client a) !! name_of x (sk_nsp a) = Some k))
  | None => LState false false false ∅ false false false
  end.
(** Operation [o] is the call [t] for socket [k].  At shutdown only the registered namespaces are closed. *)
Definition does (x : core) (k : nat) (t : lcall) (o : op) : Prop :=
  ∃ a, c_socks x !! k = Some a ∧
  match t, o with
  | LcConnect own refused, OVerdict j err => j = k ∧ own = sk_id a ∧ (refused = true ↔ err ≠ None)
  | LcTransport r, OTransport c r' => c = sk_client a ∧ r' = r
  | LcPacket, OTask i => ∃ p, c_tasks x !! i = Some (k, p) ∧ p_type p = DISCONNECT
  | LcDisconnect, ODisconnect j false => j = k
  | LcDisconnectAll, ODisconnect j true => j = k
  | LcClient, ODisconnect j true => sk_connected a = true ∧ ∃ b, c_socks x !! j = Some b ∧ sk_client b = sk_client a ∧ sk_connected b = true
  | LcShutdown, OShutdown => c_reg x !! name_of x (sk_nsp a) = Some (sk_nsp a)
  | LcJoin rs, OJoin j l => j = k ∧ rs = list_to_set l
  | LcLeave r, OLeave j r' => j = k ∧ r' = r
  | _, _ => False
  end.
(** What a client and the handlers of socket [k] hear: its events, and the packets written for it (on connection [c], for the namespace
    named [m]). *)
Definition heard (k c : nat) (m : string) (e : eff) : option lev :=
  match e with
  | EWrite c' p => if decide (c' = c ∧ p_nsp p = m) then
                     match p_type p with CONNECT => Some VPacket | CONNECT_ERROR => Some VDenied | DISCONNECT => Some VLeavePacket | _ => None end
                   else None
  | EConnect j _ => if decide (j = k) then Some VConnect else None
  | EConnection j => if decide (j = k) then Some VConnection else None
  | EDisconnecting j r => if decide (j = k) then Some (VDisconnecting r) else None
  | EDisconnect j r => if decide (j = k) then Some (VDisconnect r) else None
  | _ => None
  end.
Definition heard_by (x : core) (k : nat) (l : list (core * eff)) : list lev :=
  match c_socks x !! k with Some a => omap (λ e, heard k (sk_client a) (name_of x (sk_nsp a)) e.2) l | None => [] end.
(** The calls [ts] are the operations [es] made after [h]. *)
Definition done_by (csr skip clean : bool) (h : list (sords * op)) (k : nat) (ts : list lcall) (es : list (sords * op)) : Prop :=
  length ts = length es ∧ ∀ i t e, ts !! i = Some t → es !! i = Some e → does (run csr skip clean (h ++ take i es)).1 k t e.2.
(** The calls have ended. *)
Definition ended (c : lconf) (is : list nat) : Prop := Forall (λ i, ∃ t, lf_calls c !! i = Some (t, QDone)) is.
(** The schedule in which every call is made when the previous one is over: call [i] takes [ns !! i] steps. *)
Fixpoint turn_by_turn (i : nat) (ns : list nat) : list nat :=
  match ns with [] => [] | n :: ns => replicate n i ++ turn_by_turn (S i) ns end.
(** What is heard in call [i]. *)
Definition said (i : nat) (log : list (nat * lev)) : list lev := omap (λ e, if decide (e.1 = i) then Some e.2 else None) log.
