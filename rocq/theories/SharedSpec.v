(** Vocabulary for shared arguments. *)
From Verif Require Import Base GoTypes Shared.

(** The value written last at place [k]. *)
Definition last_write (k : nat) (ws : list (nat * value)) : option value := last (omap (λ w : nat * value, if decide (w.1 = k) then Some w.2 else None) ws).
(** What the first [n] listeners wrote, given what they were given. *)
Definition made (hs : list hook) (vs : list (list value)) (n : nat) : list (nat * value) := concat (zip_with (λ (h : hook) v, h v) (take n hs) vs).
(** [v] is [a] with the writes [ws]. *)
Definition overwritten (a : list value) (ws : list (nat * value)) (v : list value) : Prop :=
  length v = length a ∧ ∀ k x, a !! k = Some x → v !! k = Some (default x (last_write k ws)).
(** A listener that does not write. *)
Definition quiet (h : hook) : Prop := ∀ v, h v = [].
