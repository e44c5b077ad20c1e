(** Vocabulary for modifiers under concurrency.  Everything is said about the list of actions, not about the structures in memory. *)
From Verif Require Import Base FlagsConc.

Definition call_of (ps : list (list fcall)) (t k : nat) : option fcall := ps !! t ≫= (λ cs, cs !! k).
(** How many emissions took the modifiers so far. *)
Definition is_out (e : fevent) : bool := match e.2 with AOut _ _ => true | _ => false end.
Definition outs (tr : list fevent) : nat := length (filter (λ e, is_out e = true) tr).
(** Call [k] of goroutine [t] loads the pointer (the callback of an emission does so on its own) when [r] emissions have taken the modifiers. *)
Definition loads (tr : list fevent) (t k r : nat) : Prop := ∃ i, tr !! i = Some (t, k, ALoad) ∧ r = outs (take i tr).
Definition time_loads (tr : list fevent) (t k r : nat) : Prop := ∃ i, tr !! i = Some (t, k, ATimeLoad) ∧ r = outs (take i tr).
(** A modifier of the field [f] of round [r], written at place [j]; what the field is by then: the last such modifier. *)
Definition written (tr : list fevent) (r : nat) (f : field) (v j : nat) : Prop := ∃ t k, tr !! j = Some (t, k, AWrite f v) ∧ loads tr t k r.
Definition valued (tr : list fevent) (r : nat) (f : field) (o : option nat) : Prop :=
  match o with
  | Some v => ∃ j, written tr r f v j ∧ ∀ j' v', written tr r f v' j' → j' ≤ j
  | None => ∀ j v, ¬ written tr r f v j
  end.
(** The value of the field [f] in a copy. *)
Definition field_of (c : list (option nat)) (f : field) : option nat := c !! (match f with FCompress => 0 | FVolatile => 1 | FTimeout => 2 end) ≫= id.
(** One goroutine: what each emission carries is what was set since the emission before. *)
Definition pend (l : fobj) (c : fcall) : fobj := match c with FMod f v => fput f v l | _ => fobj0 end.
Definition pending (cs : list fcall) : fobj := foldl pend fobj0 cs.
Definition emissions (tr : list fevent) : list (nat * option nat * list (option nat)) :=
  omap (λ e : fevent, match e with (_, k, AOut tm c) => Some (k, tm, c) | _ => None end) tr.
Definition expected (cs : list fcall) : list (nat * option nat * list (option nat)) :=
  omap (λ k, match cs !! k with
             | Some (FMod _ _) | None => None
             | Some c => let l := pending (take k cs) in Some (k, match c with FEmit true => l FTimeout | _ => None end, l <$> all_fields)
             end) (seq 0 (length cs)).
Definition all_made (s : fst_) : Prop := ∀ t x, fs_thr s !! t = Some x → ft_done x = length (ft_calls x).
(** Calls made in turn: [us] names the goroutine that makes the next call, which ends before the next one begins. *)
Definition cost (c : fcall) : nat := match c with FMod _ _ => 2 | FEmit true => 7 | _ => 5 end.
Fixpoint in_turn (ps : list (list fcall)) (us : list nat) : list nat :=
  match us with
  | [] => []
  | t :: us => match ps !! t with Some (c :: cs) => replicate (cost c) t ++ in_turn (<[t := cs]> ps) us | _ => in_turn ps us end
  end.
Fixpoint merged (ps : list (list fcall)) (us : list nat) : list (nat * fcall) :=
  match us with
  | [] => []
  | t :: us => match ps !! t with Some (c :: cs) => (t, c) :: merged (<[t := cs]> ps) us | _ => merged ps us end
  end.
(** What the emissions carry if all calls act on one set of modifiers. *)
Fixpoint carries (l : fobj) (cs : list (nat * fcall)) : list (nat * option nat * list (option nat)) :=
  match cs with
  | [] => []
  | (_, FMod f v) :: cs => carries (fput f v l) cs
  | (t, c) :: cs => (t, match c with FEmit true => l FTimeout | _ => None end, l <$> all_fields) :: carries fobj0 cs
  end.
Definition taken (tr : list fevent) : list (nat * option nat * list (option nat)) :=
  omap (λ e : fevent, match e with (t, _, AOut tm c) => Some (t, tm, c) | _ => None end) tr.
