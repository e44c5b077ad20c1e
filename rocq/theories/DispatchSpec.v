(** Vocabulary for the statements about received events. *)
From Verif Require Import Base GoTypes Dispatch.

Definition log_packet (e : dlog) : nat := match e with LAny k _ | LHandler k _ _ | LError k _ | LIgnored k | LPanic k => k end.
(** What happened to packet [k]. *)
Definition trace_of (k : nat) (l : list dlog) : list dlog := filter (λ e, log_packet e = k) l.
(** The packets received while the socket was registered, in order. *)
Fixpoint received (reg : bool) (ls : list dlabel) : list dpacket :=
  match ls with
  | [] => []
  | DRecv x :: ls => if reg then x :: received reg ls else received reg ls
  | DUnreg :: ls => received false ls
  | _ :: ls => received reg ls
  end.
(** The packets dispatched to the handlers, in order. *)
Definition handled (l : list dlog) : list nat := omap (λ e, match e with LHandler k _ _ => Some k | _ => None end) l.
(** All goroutines have finished. *)
Definition idle (s : dstate) : Prop := ∀ x p, (x, p) ∈ ds_thr s → p = DDone.
(** Each packet is received when the previous ones are finished with. *)
Definition one_at_a_time (ls : list dlabel) : Prop := ∀ l1 x l2, ls = l1 ++ DRecv x :: l2 → idle (drun l1).
(** The payload of a packet: an event name and arguments. *)
Definition names (x : dpacket) (ev : string) (args : list value) : Prop := dp_data x = VStr ev :: args.
