(** Property C77: the arguments of an event are shared by those who see it. *)
From Verif Require Import Base GoTypes Shared SharedSpec SharedProofs.

(** ** C77 Shared arguments
    Whatever the catch-all listeners and middlewares write into their arguments: each of them is given what the client sent with, at every place, the value
    that was written there last by one of those before it. *)
Theorem C77_received : ∀ anys ms a i v, (receive anys ms a).1 !! i = Some v → overwritten a (made (anys ++ (mw_hook <$> ms)) (receive anys ms a).1 i) v.
Proof. exact received. Qed.
Print Assumptions C77_received.
(** And so are the handlers of the event, whose name too is that at the first place; they are called only if every middleware was. *)
Theorem C77_dispatched : ∀ anys ms a ev args, (receive anys ms a).2 = OEvent ev args → length (receive anys ms a).1 = length anys + length ms ∧
  overwritten a (made (anys ++ (mw_hook <$> ms)) (receive anys ms a).1 (length anys + length ms)) (VStr ev :: args).
Proof. exact dispatched. Qed.
Print Assumptions C77_dispatched.
(** The event is refused with an error exactly if a middleware that was called gave that error for what it was given, and nobody is called after it; the
    dispatch panics only if all were called and left at the first place something other than a string. *)
Theorem C77_verdict : ∀ anys ms a, let x := receive anys ms a in
  (∀ e, x.2 = OErr e ↔ ∃ n m v, ms !! n = Some m ∧ x.1 !! (length anys + n) = Some v ∧ mw_err m v = Some e) ∧
  (∀ n m v e, ms !! n = Some m → x.1 !! (length anys + n) = Some v → mw_err m v = Some e → length x.1 = length anys + S n) ∧
  (x.2 = OPanic → length x.1 = length anys + length ms ∧
     ∃ w, overwritten a (made (anys ++ (mw_hook <$> ms)) x.1 (length anys + length ms)) w ∧ ∀ ev, head w ≠ Some (VStr ev)).
Proof. exact verdict. Qed.
Print Assumptions C77_verdict.
(** A middleware writes a number over the name of the event. *)
Example C77_example_panic :
  receive [] [Mware (λ _, [(0, VNum 7)]) (λ _, None); Mware (λ _, []) (λ _, None)] [VStr "message"] = ([[VStr "message"]; [VNum 7]], OPanic).
Proof. vm_compute. reflexivity. Qed.
(** If nobody writes, all are given what the client sent. *)
Theorem C77_quiet : ∀ anys ms a, Forall quiet anys → Forall quiet (mw_hook <$> ms) →
  (∀ i v, (receive anys ms a).1 !! i = Some v → v = a) ∧ (∀ ev args, (receive anys ms a).2 = OEvent ev args → a = VStr ev :: args).
Proof. exact all_quiet. Qed.
Print Assumptions C77_quiet.
(** A listener that writes its name, another that reads; a middleware that renames the event. *)
Example C77_example :
  receive [(λ _, [(1, VStr "bob")]); (λ _, [])] [Mware (λ v, if decide (length v = 2) then [(0, VStr "chat")] else []) (λ _, None)] [VStr "message"; VStr "alice"] =
  ([[VStr "message"; VStr "alice"]; [VStr "message"; VStr "bob"]; [VStr "message"; VStr "bob"]], OEvent "chat" [VStr "bob"]).
Proof. vm_compute. reflexivity. Qed.
Example C77_example_error :
  receive [] [Mware (λ _, []) (λ _, None); Mware (λ _, []) (λ _, Some "no"); Mware (λ _, []) (λ _, None)] [VStr "message"] = ([[VStr "message"]; [VStr "message"]], OErr "no").
Proof. vm_compute. reflexivity. Qed.
(** Emit: the client is sent what the outgoing listeners left in the slice. *)
Theorem C77_emit : ∀ hs a, overwritten a (made hs (emit_direct hs a).1 (length hs)) (emit_direct hs a).2 ∧
  (∀ i v, (emit_direct hs a).1 !! i = Some v → overwritten a (made hs (emit_direct hs a).1 i) v) ∧ (Forall quiet hs → (emit_direct hs a).2 = a).
Proof. exact emitted_all. Qed.
Print Assumptions C77_emit.
(** A broadcast with connection state recovery: every target is sent what was broadcast and the offset, whatever the listeners of this and of other
    targets write; a client that missed it is sent later what they left, the same if nobody writes. *)
Theorem C77_stored : ∀ targets a offset, let x := broadcast_stored targets a offset in let hs := concat targets in
  x.1.2 = replicate (length targets) (a ++ [VStr offset]) ∧ (∀ i v, x.1.1 !! i = Some v → overwritten (a ++ [VStr offset]) (made hs x.1.1 i) v) ∧
  overwritten (a ++ [VStr offset]) (made hs x.1.1 (length hs)) x.2 ∧ (Forall quiet hs → x.2 = a ++ [VStr offset]).
Proof. exact stored. Qed.
Print Assumptions C77_stored.
Example C77_example_stored : let quiet_one : hook := λ _, [] in Forall quiet (concat [[quiet_one]; [quiet_one; quiet_one]]) ∧
  broadcast_stored [[quiet_one]; [quiet_one; quiet_one]] [VStr "m"] "o1" = (replicate 3 [VStr "m"; VStr "o1"], replicate 2 [VStr "m"; VStr "o1"], [VStr "m"; VStr "o1"]) ∧
  emit_direct [(λ v, if decide (length v = 2) then [(1, VNum 2)] else []); quiet_one] [VStr "m"; VNum 1] = ([[VStr "m"; VNum 1]; [VStr "m"; VNum 2]], [VStr "m"; VNum 2]).
Proof. cbv zeta. split; [by repeat constructor|]. split; vm_compute; reflexivity. Qed.
(** So a listener can change what is sent by Emit; and what is sent again differs from what was sent if a listener of any target wrote, also if
    it replaced the offset. *)
Theorem C77_emit_refuted : ∃ h a, (emit_direct [h] a).2 ≠ a.
Proof. exists (λ _, [(1, VStr "bob")]), [VStr "message"; VStr "alice"]. vm_compute. congruence. Qed.
Print Assumptions C77_emit_refuted.
Theorem C77_replay_refuted : ∃ targets a offset, let x := broadcast_stored targets a offset in
  x.1.2 = [a ++ [VStr offset]; a ++ [VStr offset]] ∧ x.2 = [VStr "message"; VStr "bob"; VNil] ∧ a = [VStr "message"; VStr "alice"].
Proof. exists [[(λ _, [(1, VStr "bob"); (2, VNil)])]; []], [VStr "message"; VStr "alice"], "o1". split_and!; vm_compute; reflexivity. Qed.
Print Assumptions C77_replay_refuted.
