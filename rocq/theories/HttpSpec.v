(** Vocabulary for the statements about the HTTP answers of client serving. *)
From Coq Require Import Ascii.
From Verif Require Import Base GoTypes Serve ServeSpec Http.

(** The formats registered for the content codings (RFC 9110, 8.4.1; RFC 7932; RFC 8878). *)
Definition registered (coding : option string) : option format :=
  match coding with
  | None => Some Verbatim
  | Some c =>
      if decide (c = "gzip") then Some Rfc1952 else if decide (c = "deflate") then Some Rfc1950
      else if decide (c = "br") then Some Rfc7932 else if decide (c = "zstd") then Some Rfc8878 else None
  end.

(** An Accept-Encoding header as a list of codings, each with a weight or without (RFC 9110, 12.5.3). *)
Record clause := Clause { cl_coding : string; cl_weight : option string }.
Definition codings : list string := ["gzip"; "deflate"; "br"; "zstd"; "identity"; "compress"; "*"].
Definition digit (c : ascii) : Prop := c ∈ txt "0123456789.".
Definition clause_ok (c : clause) : Prop := cl_coding c ∈ codings ∧ ∀ w, cl_weight c = Some w → Forall digit (txt w).
Definition write_clause (c : clause) : text :=
  txt (cl_coding c) ++ match cl_weight c with None => [] | Some w => txt ";q=" ++ txt w end.
(** The header: the clauses, separated by a comma and a space. *)
Fixpoint header (cs : list clause) : text :=
  match cs with
  | [] => []
  | [c] => write_clause c
  | c :: cs => write_clause c ++ txt ", " ++ header cs
  end.
(** A weight of zero: "not acceptable". *)
Definition zero_weight (w : option string) : Prop := ∃ s, w = Some s ∧ Forall (λ c, c = "0"%char ∨ c = "."%char) (txt s).
(** The client accepts the coding by naming it. *)
Definition acceptable (cs : list clause) (e : string) : Prop := ∃ w, Clause e w ∈ cs ∧ ¬ zero_weight w.
(** The coding the server prefers among those named. *)
Definition preferred (cs : list clause) (e : string) : Prop :=
  let named x := ∃ w, Clause x w ∈ cs in
  (e = "gzip" ∧ named "gzip") ∨
  (e = "deflate" ∧ named "deflate" ∧ ¬ named "gzip") ∨
  (e = "br" ∧ named "br" ∧ ¬ named "gzip" ∧ ¬ named "deflate") ∨
  (e = "zstd" ∧ named "zstd" ∧ ¬ named "gzip" ∧ ¬ named "deflate" ∧ ¬ named "br").
(** The request reads the bundle file [f] under the prefix. *)
Definition reads (prefix : text) (r : request) (f : text) : Prop :=
  ∃ b, bare prefix b ∧ bundle_file f ∧ rq_path r = b ++ slash :: f ∧ (rq_method r = "GET" ∨ rq_method r = "HEAD").
Definition map_file (f : text) : Prop := ∃ g, f = g ++ txt ".map".
(** The headers of an answer. *)
Definition hdr (s : response) (n : string) : option string := rs_headers s !! n.
