(** Vocabulary for the statements about credentials. *)
From Verif Require Import Base GoTypes SessionData.

(** A value that carries the non-empty string [s]. *)
Inductive carries : value → string → Prop :=
  | carries_str s : s ≠ "" → carries (VStr s) s
  | carries_last l s : s ≠ "" → carries (VStrs (l ++ [s])) s.
(** The payload presents the private id [p] and the offset [o]. *)
Inductive presents : auth → string → string → Prop :=
  | presents_map m v w p o : m !! "pid" = Some v → m !! "offset" = Some w → carries v p → carries w o → presents (AuthMap m) p o
  | presents_strings m p o : m !! "pid" = Some p → m !! "offset" = Some o → p ≠ "" → o ≠ "" → presents (AuthStrings m) p o.
