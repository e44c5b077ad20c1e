(** Specification of the attachment of a server, on the history of calls. *)
From Verif Require Import Base Attach.

(** The HTTP servers attached to, in order. *)
Definition attaches (h : list aop) : list nat := omap (λ o, match o with AAttach x => Some x | _ => None end) h.
Definition makes (o : aop) : bool := match o with AAttach _ | AHandler => true | _ => false end.
(** The engines of the server by the HTTP server they belong to: one per Attach, and one without if ServeHandler came before the first Attach. *)
Definition engines (h : list aop) : list (option nat) :=
  match filter (λ o, Is_true (makes o)) h with
  | AHandler :: _ => None :: (Some <$> attaches h)
  | _ => Some <$> attaches h
  end.
(** The engines bound, in order; [n]: the engines of the server before. *)
Fixpoint bindings (n : nat) (h : list aop) : list eid :=
  match h with
  | [] => []
  | AAttach _ :: h => Own n :: bindings (S n) h
  | AHandler :: h => if decide (n = 0) then Own 0 :: bindings 1 h else bindings n h
  | ABind e :: h => Foreign e :: bindings n h
  | _ :: h => bindings n h
  end.
(** No engine of the application is bound twice. *)
Definition bound_once (h : list aop) : Prop := NoDup (omap (λ o, match o with ABind e => Some e | _ => None end) h).
(** Engine [e] belongs to the server after [h]. *)
Definition bound (e : eid) (h : list aop) : Prop := match e with Own n => n < length (engines h) | Foreign n => ABind n ∈ h end.
Global Instance bound_dec e h : Decision (bound e h).
Proof. destruct e; cbn; apply _. Defined.
(** The engines that Close closes: those of the HTTP server attached to last; without any, the engine bound last. *)
Definition closes (h : list aop) (e : eid) : Prop :=
  match last (attaches h) with
  | Some x => match e with Own n => engines h !! n = Some (Some x) | Foreign _ => False end
  | None => last (bindings 0 h) = Some e
  end.
