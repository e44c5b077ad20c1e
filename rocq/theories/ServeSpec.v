(** Vocabulary for the statements about serving the client bundle. *)
From Coq Require Import Ascii.
From Verif Require Import Base GoTypes Serve.

(** A proper component of a path: names an entry of its directory. *)
Definition component (c : text) : Prop := c ≠ [] ∧ c ≠ txt "." ∧ c ≠ txt ".." ∧ slash ∉ c.
(** [dir]: an installation directory, as returned by filepath.Dir. *)
Definition install_dir (dir : list text) : Prop := Forall component dir.
(** The files of the client bundle. *)
Inductive bundle_file : text → Prop :=
  | bundle_file_intro a b c : a ∈ [""; ".msgpack"; ".esm"] → b ∈ [""; ".min"] → c ∈ [""; ".map"] →
      bundle_file (txt (("socket.io" ++ a ++ b ++ ".js" ++ c)%string)).
(** The prefix the server was given, without the slashes at its end. *)
Definition bare (prefix b : text) : Prop := (∃ n, prefix = b ++ replicate n "/"%char) ∧ last b ≠ Some "/"%char.
(** The request is for the bundle: the path is the prefix, a slash, a bundle file, and possibly a question
    mark and more. *)
Definition for_bundle (prefix path : text) : Prop :=
  ∃ b f rest, bare prefix b ∧ bundle_file f ∧ path = b ++ slash :: f ++ rest ∧ (rest = [] ∨ ∃ r, rest = "?"%char :: r).
(** The entity tag of the request names the version served. *)
Definition tag_matches (inm : string) : Prop :=
  inm = String "034" ("4.7.5" ++ String "034" "") ∨ inm = ("W/" ++ String "034" ("4.7.5" ++ String "034" ""))%string.
