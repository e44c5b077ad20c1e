(** What the middleware properties mean, in terms of the history of calls and the log. *)
From Verif Require Import Base GoTypes Middleware.

(** The middlewares registered by a history, in registration order. *)
Definition uses (ls : list mlabel) : list nat := omap (λ l, match l with MUse f => Some f | _ => None end) ls.
(** The attempts (connections or events) of a history: client or socket, skip and protocol flags,
    and the middlewares registered when it started. *)
Fixpoint attempts (us : list nat) (ls : list mlabel) : list (nat * bool * bool * list nat) :=
  match ls with
  | [] => []
  | MUse f :: ls => attempts (us ++ [f]) ls
  | MStart g skip p3 :: ls => (g, skip, p3, us) :: attempts us ls
  | _ :: ls => attempts us ls
  end.
(** The answers the middlewares gave for attempt [a], and the invocations that gave them. *)
Definition answers (ls : list mlabel) (a : nat) : list (option merr) :=
  omap (λ l, match l with MNext b _ e => if decide (b = a) then Some e else None | _ => None end) ls.
Definition answerers (ls : list mlabel) (a : nat) : list nat :=
  omap (λ l, match l with MNext b k _ => if decide (b = a) then Some k else None | _ => None end) ls.
(** Every middleware called next at most once for attempt [a]. *)
Definition one_answer (ls : list mlabel) (a : nat) : Prop := NoDup (answerers ls a).

(** The middlewares called one after the other from position [i], each passing. *)
Fixpoint passing (a i : nat) (fs : list nat) : list mev :=
  match fs with [] => [] | f :: fs => CInv a i f :: CNext a i None :: passing a (S i) fs end.

(** What must be observed of the middlewares: called in order, each after the previous one passed,
    none after an error. *)
Fixpoint conversation (a i : nat) (fs : list nat) (ans : list (option merr)) : list mev :=
  match fs with
  | [] => []
  | f :: fs =>
    CInv a i f ::
      match ans with
      | [] => []
      | None :: ans => CNext a i None :: conversation a (S i) fs ans
      | Some e :: _ => [CNext a i (Some e)]
      end
  end.
(** The verdict: still waiting, passed, or the first error. *)
Inductive verdict := VWait | VPass | VFail (e : merr).
Fixpoint verdict_of (fs : list nat) (ans : list (option merr)) : verdict :=
  match fs, ans with
  | [], _ => VPass
  | _ :: _, [] => VWait
  | _ :: fs, None :: ans => verdict_of fs ans
  | _ :: _, Some e :: _ => VFail e
  end.

(** The parts of the log about attempt [a]: the middlewares, and the outcome. *)
Definition is_mw (a : nat) (e : mev) : bool := match e with CInv b _ _ | CNext b _ _ => bool_decide (b = a) | _ => false end.
Definition is_outcome (a : nat) (e : mev) : bool :=
  match e with CClean b | CErrPkt b _ | CErrEv b _ | CDrop b | CGo b => bool_decide (b = a) | _ => false end.
Definition mw_part (a : nat) (log : list mev) : list mev := filter (is_mw a) log.
Definition outcome (a : nat) (log : list mev) : list mev := filter (is_outcome a) log.

(** Goroutines of attempt [a] have all finished. *)
Definition settled (s : mst) (a : nat) : Prop := ∃ x, m_att s !! a = Some x ∧ ∀ t, t ∈ at_tasks x → t = TDone.
(** The connection (socket) of gate [g] was never closed. *)
Definition stays_open (ls : list mlabel) (g : nat) : Prop := MClose g ∉ ls.

(** What the client must be told when it is refused: the message and the data of the error; a protocol-3
    client gets the data alone, or the message if there is none. *)
Definition refusal (p3 : bool) (e : merr) : value :=
  match p3, me_data e with
  | true, VNil => VStr (me_msg e)
  | true, d => d
  | false, d => VMap [("message", VStr (me_msg e)); ("data", d)]
  end.
