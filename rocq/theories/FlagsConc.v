(** The modifiers of one socket when several goroutines use it, at the granularity of the operations on its flags.
    Source: socket/socket.go:120, 138 (an atomic pointer to a structure), 692, 705, 748 (Compress, Volatile, Timeout: the pointer is
    loaded, a field of the structure is written), 291-299 (Emit: with callback, 346-348 registerAckCallback loads the pointer and
    reads the timeout; then the pointer is loaded, the structure copied and a new one stored), 1011-1015 (newBroadcastOperator: the
    same; To, In, Except, Broadcast, Local call it).
    Simplified: the three fields that Socket's methods set; their values are numbers ([None]: the zero value); the fields are copied one
    after another, in any case not as one operation; events with reserved names, which return at once, are left out. *)
From Verif Require Import Base.

Inductive field := FCompress | FVolatile | FTimeout.
#[global] Instance field_eq_dec : EqDecision field.
Proof. solve_decision. Defined.
Definition all_fields : list field := [FCompress; FVolatile; FTimeout].
Notation fobj := (field → option nat).
Definition fobj0 : fobj := λ _, None.
Definition fput (f : field) (v : nat) (o : fobj) : fobj := λ g, if decide (g = f) then Some v else o g.

Inductive fcall :=
  | FMod (f : field) (v : nat)
  | FEmit (ack : bool)            (* Emit, with or without callback *)
  | FOper.                        (* To, In, Except, Broadcast, Local *)
#[global] Instance fcall_eq_dec : EqDecision fcall.
Proof. solve_decision. Defined.
Inductive fpc :=
  | PNext                                                        (* before the next call *)
  | PSet (p : nat)                                               (* a modifier has loaded the pointer *)
  | PTime (p : nat)                                              (* socket.go:347, between Load and the field *)
  | PLoad (tm : option nat)                                      (* socket.go:298 *)
  | PCopy (p : nat) (tm : option nat) (c : list (option nat)).   (* socket.go:298-299: the fields copied so far *)
Record fthread := FThread { ft_calls : list fcall; ft_done : nat; ft_pc : fpc }.
Record fst_ := FSt { fs_heap : list fobj; fs_ptr : nat; fs_thr : list fthread }.

(** What a step did: goroutine, number of its call, action.  [AOut]: a new structure is stored and the emission (or the operator) goes
    on with the timeout of its callback and the copied fields. *)
Inductive fact := ALoad | AWrite (f : field) (v : nat) | ATimeLoad | ATimeRead | ARead (f : field) | AOut (tm : option nat) (c : list (option nat)).
Notation fevent := (nat * nat * fact)%type.

Definition f_read (s : fst_) (p : nat) (f : field) : option nat := (default fobj0 (fs_heap s !! p)) f.
Definition f_goto (t : nat) (x : fthread) (pc : fpc) (s : fst_) : fst_ := FSt (fs_heap s) (fs_ptr s) (<[t := FThread (ft_calls x) (ft_done x) pc]> (fs_thr s)).
Definition f_next (t : nat) (x : fthread) (s : fst_) : fst_ := FSt (fs_heap s) (fs_ptr s) (<[t := FThread (ft_calls x) (S (ft_done x)) PNext]> (fs_thr s)).
Definition f_thread (t : nat) (x : fthread) (call : fcall) (s : fst_) : fst_ * fact :=
  match ft_pc x with
  | PNext => match call with
             | FMod _ _ => (f_goto t x (PSet (fs_ptr s)) s, ALoad)
             | FEmit true => (f_goto t x (PTime (fs_ptr s)) s, ATimeLoad)
             | _ => (f_goto t x (PCopy (fs_ptr s) None []) s, ALoad)
             end
  | PSet p => match call with
              | FMod f v => (f_next t x (FSt (alter (fput f v) p (fs_heap s)) (fs_ptr s) (fs_thr s)), AWrite f v)
              | _ => (s, ALoad)
              end
  | PTime p => (f_goto t x (PLoad (f_read s p FTimeout)) s, ATimeRead)
  | PLoad tm => (f_goto t x (PCopy (fs_ptr s) tm []) s, ALoad)
  | PCopy p tm c => match all_fields !! length c with
                    | Some f => (f_goto t x (PCopy p tm (c ++ [f_read s p f])) s, ARead f)
                    | None => (f_next t x (FSt (fs_heap s ++ [fobj0]) (length (fs_heap s)) (fs_thr s)), AOut tm c)
                    end
  end.
Definition f_step (st : fst_ * list fevent) (t : nat) : fst_ * list fevent :=
  let '(s, tr) := st in
  match fs_thr s !! t with
  | Some x => match ft_calls x !! ft_done x with
              | Some call => let '(s', a) := f_thread t x call s in (s', tr ++ [(t, ft_done x, a)])
              | None => st
              end
  | None => st
  end.
Definition f_start (ps : list (list fcall)) : fst_ := FSt [fobj0] 0 ((λ cs, FThread cs 0 PNext) <$> ps).
Definition f_run (ps : list (list fcall)) (ls : list nat) : fst_ * list fevent := foldl f_step (f_start ps, []) ls.
