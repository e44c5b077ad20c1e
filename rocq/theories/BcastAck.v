(** Model of BroadcastOperator.Emit with an acknowledgement, socket/broadcast-operator.go:194-251,
    at the granularity of the individual accesses to the shared counters.
    Simplifications: counters are naturals (no uint64 wrap-around); the cluster or local adapter
    is the environment: it reports one client count per server ([LbCount]), passes on client
    replies ([LbReply]), and its BroadcastWithAck returns ([LbFinish]) at any time.
    types.Slice operations (Push, Len, All, Get) are atomic. *)
From Verif Require Import Base GoTypes.

(** A call of the user's callback: without error, with the timeout error; or the panic of
    [data.([]any)] (line 229), which ends the process. *)
Inductive bcall := BOk (l : list value) | BErr (l : list value) | BPanic.

(** Lines 226-233 and 209-213: what the callback is called with. [single] is ExpectSingleResponse. *)
Definition ok_result (single : bool) (resp : list value) : bcall :=
  if single then match resp with VArr l :: _ => BOk l | _ => BPanic end else BOk resp.
Definition err_result (single : bool) (resp : list value) : bcall := if single then BErr [] else BErr resp.

Inductive bthread :=
  | BAddCli (n : nat)              (* line 242: expectedClientCount.Add *)
  | BAddSrv                        (* line 243: actualServerCount.Add *)
  | BPush (args : list value)      (* line 247: responses.Push(clientResponse...) *)
  | BSetExp                        (* line 250: expectedServerCount = ServerCount() *)
  | BChkTimed                      (* line 223: timedOut.Load *)
  | BChkE | BChkEA (e : option nat) (* expectedServerCount read, then actualServerCount.Load *)
  | BChkA | BChkAE (a : nat)        (* the other order: Go leaves it open *)
  | BChkLen                        (* responses.Len *)
  | BChkCli (len : nat)            (* expectedClientCount.Load *)
  | BClear                         (* line 224: ClearTimeout *)
  | BCall                          (* lines 225-231 *)
  | BTimeSet                       (* line 208: timedOut.Store *)
  | BTimeCall.                     (* lines 209-213 *)

Record bst := BSt {
  b_resp : list value; b_timed : bool; b_exp : option nat; b_act : nat; b_cli : nat; b_armed : bool;
  b_thr : list (option bthread); b_calls : list bcall }.
(** Lines 202-219: the timer is armed before the packet is broadcast. *)
Definition bst0 : bst := BSt [] false None 0 0 true [] [].

Definition b_set (t : nat) (x : option bthread) (s : bst) : bst :=
  BSt (b_resp s) (b_timed s) (b_exp s) (b_act s) (b_cli s) (b_armed s) (<[t := x]> (b_thr s)) (b_calls s).
Definition b_spawn (x : bthread) (s : bst) : bst :=
  BSt (b_resp s) (b_timed s) (b_exp s) (b_act s) (b_cli s) (b_armed s) (b_thr s ++ [Some x]) (b_calls s).

Section bcast.
Context (sc : nat) (single : bool).   (* ServerCount(), flags.ExpectSingleResponse *)

(** One step of goroutine [t]; [ef]: expectedServerCount is read first. *)
Definition bstep_thr (t : nat) (ef : bool) (x : bthread) (s : bst) : bst :=
  match x with
  | BAddCli n => b_set t (Some BAddSrv) (BSt (b_resp s) (b_timed s) (b_exp s) (b_act s) (b_cli s + n) (b_armed s) (b_thr s) (b_calls s))
  | BAddSrv => b_set t (Some BChkTimed) (BSt (b_resp s) (b_timed s) (b_exp s) (S (b_act s)) (b_cli s) (b_armed s) (b_thr s) (b_calls s))
  | BPush args => b_set t (Some BChkTimed) (BSt (b_resp s ++ args) (b_timed s) (b_exp s) (b_act s) (b_cli s) (b_armed s) (b_thr s) (b_calls s))
  | BSetExp => b_set t (Some BChkTimed) (BSt (b_resp s) (b_timed s) (Some sc) (b_act s) (b_cli s) (b_armed s) (b_thr s) (b_calls s))
  | BChkTimed => b_set t (if b_timed s then None else Some (if ef then BChkE else BChkA)) s
  | BChkE => b_set t (Some (BChkEA (b_exp s))) s
  | BChkEA e => b_set t (if decide (e = Some (b_act s)) then Some BChkLen else None) s
  | BChkA => b_set t (Some (BChkAE (b_act s))) s
  | BChkAE a => b_set t (if decide (b_exp s = Some a) then Some BChkLen else None) s
  | BChkLen => b_set t (Some (BChkCli (length (b_resp s)))) s
  | BChkCli n => b_set t (if decide (n = b_cli s) then Some BClear else None) s
  | BClear => b_set t (Some BCall) (BSt (b_resp s) (b_timed s) (b_exp s) (b_act s) (b_cli s) false (b_thr s) (b_calls s))
  | BCall => b_set t None (BSt (b_resp s) (b_timed s) (b_exp s) (b_act s) (b_cli s) (b_armed s) (b_thr s) (b_calls s ++ [ok_result single (b_resp s)]))
  | BTimeSet => b_set t (Some BTimeCall) (BSt (b_resp s) true (b_exp s) (b_act s) (b_cli s) (b_armed s) (b_thr s) (b_calls s))
  | BTimeCall => b_set t None (BSt (b_resp s) (b_timed s) (b_exp s) (b_act s) (b_cli s) (b_armed s) (b_thr s) (b_calls s ++ [err_result single (b_resp s)]))
  end.

Inductive blabel :=
  | LbCount (n : nat)                 (* a server reports its number of notified clients *)
  | LbReply (args : list value)       (* a client replies *)
  | LbFinish                          (* BroadcastWithAck returns *)
  | LbTimer                           (* the timer fires *)
  | LbRun (t : nat) (ef : bool).
Definition bstep (l : blabel) (s : bst) : option bst :=
  match l with
  | LbCount n => Some (b_spawn (BAddCli n) s)
  | LbReply args => Some (b_spawn (BPush args) s)
  | LbFinish => Some (b_spawn BSetExp s)
  | LbTimer => if b_armed s then
      Some (b_spawn BTimeSet (BSt (b_resp s) (b_timed s) (b_exp s) (b_act s) (b_cli s) false (b_thr s) (b_calls s))) else None
  | LbRun t ef => match b_thr s !! t with Some (Some x) => Some (bstep_thr t ef x s) | _ => None end
  end.
Fixpoint bexec (ls : list blabel) (s : bst) : option bst :=
  match ls with [] => Some s | l :: ls => match bstep l s with Some s' => bexec ls s' | None => None end end.

(** Handlers that do not overlap. *)
Inductive bevent := EbCount (n : nat) | EbReply (args : list value) | EbFinish | EbTimer.
Definition eb_label (e : bevent) : blabel :=
  match e with EbCount n => LbCount n | EbReply args => LbReply args | EbFinish => LbFinish | EbTimer => LbTimer end.
Fixpoint brun_thr (n : nat) (t : nat) (s : bst) : bst :=
  match n with
  | O => s
  | S n => match b_thr s !! t with Some (Some x) => brun_thr n t (bstep_thr t true x s) | _ => s end
  end.
(** A timer that is not running does not fire. *)
Definition bserial1 (s : bst) (e : bevent) : bst :=
  match bstep (eb_label e) s with Some s' => brun_thr 9 (length (b_thr s)) s' | None => s end.
Definition bserial (es : list bevent) : bst := foldl bserial1 bst0 es.
End bcast.
