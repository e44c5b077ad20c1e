(** Vocabulary for the statements about options. *)
From Coq Require Import Ascii.
From Verif Require Import Base GoTypes Options.

(** An option is overridden if it is set in the argument, and kept otherwise. *)
Inductive overrides {A} : option A → option A → option A → Prop :=
  | overridden v old : overrides (Some v) old (Some v)
  | kept old : overrides None old old.
(** The value in use is the one given, or the default if none was given. *)
Inductive in_use {A} (dflt : A) : option A → A → Prop :=
  | use_given v : in_use dflt (Some v) v
  | use_default : in_use dflt None dflt.
(** [t] is [s] without its trailing slashes. *)
Definition without_trailing_slashes (s t : string) : Prop :=
  ∃ n, list_ascii_of_string s = list_ascii_of_string t ++ replicate n "/"%char ∧ ∀ u, list_ascii_of_string t ≠ u ++ ["/"%char].
