(** Vocabulary for the statements about catch-all listeners. *)
From Coq Require Import Sorting.Sorted.
From Verif Require Import Base GoTypes AnyListeners.

(** Step [i] of a history registers listener [l]; [key]: its place in the implied order, earlier
    registrations first, prepended ones before all and in reverse. *)
Definition registers (op : aop) (l : listener) : Prop := op = AOn l ∨ op = APrepend l.
Definition registered (h : list aop) (i : nat) (l : listener) : Prop := ∃ op, h !! i = Some op ∧ registers op l.
Definition key (h : list aop) (i : nat) : Z :=
  match h !! i with Some (APrepend _) => (- Z.of_nat i - 1)%Z | _ => Z.of_nat i end.

(** The registrations in force after a history, given in reverse: removing [l] takes out the one of [l]
    that comes first in the implied order, removing nil all. *)
Fixpoint in_force_rev (r : list aop) (i : nat) : Prop :=
  match r with
  | [] => False
  | op :: r =>
      (i = length r ∧ ∃ l, registers op l) ∨
      (in_force_rev r i ∧ op ≠ AOff None ∧
       ∀ l, op = AOff (Some l) → registered (reverse r) i l → ∃ j, in_force_rev r j ∧ registered (reverse r) j l ∧ (key (reverse r) j < key (reverse r) i)%Z)
  end.
Definition in_force (h : list aop) (i : nat) : Prop := in_force_rev (reverse h) i.
(** The registrations in force, in the implied order. *)
Definition in_order (h : list aop) (is : list nat) : Prop :=
  (∀ i, i ∈ is ↔ in_force h i) ∧ StronglySorted (λ i j, (key h i < key h j)%Z) is.

(** Function values are told apart by their code. *)
Definition codes_distinct (h : list aop) : Prop :=
  ∀ l l', (∃ i, registered h i l ∨ h !! i = Some (AOff (Some l))) → (∃ i, registered h i l' ∨ h !! i = Some (AOff (Some l'))) → li_code l = li_code l' → l = l'.
