(** Model of serving the client bundle.  Source: socket/server.go:26-31, 234-238, 375-503.
    Strings are lists of characters.  Path operations are those of Unix (separator '/').
    Not modelled: the CORS middleware; the headers and the body of the answer are in Http.v. *)
From Coq Require Import Ascii.
From Verif Require Import Base GoTypes.
Definition text := list Ascii.ascii.
Definition txt (s : string) : text := list_ascii_of_string s.
Definition slash : Ascii.ascii := "/"%char.

(** The components of a path, between the slashes. *)
Fixpoint split_path (p : text) : list text :=
  match p with
  | [] => [[]]
  | c :: p =>
      if decide (c = slash) then [] :: split_path p
      else match split_path p with [] => [[c]] | x :: l => (c :: x) :: l end
  end.
(** strings.TrimRight(p, "/"). *)
Fixpoint trim (p : text) : text :=
  match p with
  | [] => []
  | c :: p => match trim p with [] => if decide (c = slash) then [] else [c] | p' => c :: p' end
  end.
(** filepath.Base. *)
Definition base (p : text) : text :=
  match p with
  | [] => txt "."
  | _ => match trim p with
         | [] => txt "/"
         | q => match last (split_path q) with Some x => x | None => [] end
         end
  end.
(** filepath.Clean of a rooted path, given by its components. *)
Definition clean_step (acc : list text) (c : text) : list text :=
  if decide (c = [] ∨ c = txt ".") then acc
  else if decide (c = txt "..") then reverse (tail (reverse acc))
  else acc ++ [c].
Definition clean (cs : list text) : list text := foldl clean_step [] cs.
(** A rooted clean path as a string. *)
Definition render (cs : list text) : text := match cs with [] => txt "/" | _ => concat ((λ c, slash :: c) <$> cs) end.
(** strings.HasPrefix. *)
Fixpoint strip (pre p : text) : option text :=
  match pre, p with
  | [], _ => Some p
  | a :: pre, b :: p => if decide (a = b) then strip pre p else None
  | _ :: _, [] => None
  end.

(** clientPathRegex, server.go:234-238, after the quoted prefix: the names it lists, followed by the end or
    by a question mark. *)
Definition bundle_names : list text :=
  a ← [""; ".msgpack"; ".esm"]; b ← [""; ".min"]; c ← [""; ".map"]; [txt (("/socket.io" ++ a ++ b ++ ".js" ++ c)%string)].
Definition regex_match (prefix path : text) : bool :=
  match strip (trim prefix) path with
  | Some rest => existsb (λ n, match strip n rest with Some [] => true | Some (c :: _) => bool_decide (c = "?"%char) | None => false end) bundle_names
  | None => false
  end.

Record request := Request { rq_method : string; rq_path : text; rq_inm : string }.
Inductive answer :=
  | NotAllowed                                  (* 405 *)
  | NotModified                                 (* 304 *)
  | NotFound                                    (* 404 without opening a file *)
  | Opened (path : list text)                   (* os.Open of this path; then its contents, or 404 *)
  | ToEngine | ToDefault.
Definition client_version : string := "4.7.5".
Definition quote : string := String (Ascii.ascii_of_nat 34) EmptyString.
Definition etag : string := (quote ++ client_version ++ quote)%string.
(** sendFile, server.go:433-455; [install]: the components of the parent of the directory of the executable;
    [None]: os.Executable fails. *)
Definition send_file (install : option (list text)) (filename : text) : answer :=
  match install with
  | None => NotFound
  | Some dir =>
      let target := clean (dir ++ [txt "client-dist"] ++ split_path filename) in
      match strip (render dir) (render target) with Some _ => Opened target | None => NotFound end
  end.
(** serve, server.go:397-431. *)
Definition serve (install : option (list text)) (r : request) : answer :=
  if decide (rq_method r ≠ "GET" ∧ rq_method r ≠ "HEAD") then NotAllowed
  else
    let filename := base (rq_path r) in
    if decide (rq_inm r ≠ "" ∧ (etag = rq_inm r ∨ ("W/" ++ etag)%string = rq_inm r)) then NotModified
    else send_file install filename.
(** attachServe, server.go:375-394; [slash_opt]: AddTrailingSlash. *)
Definition handle (prefix : text) (slash_opt : option bool) (install : option (list text)) (r : request) : answer :=
  if regex_match prefix (rq_path r) then serve install r
  else match slash_opt with None | Some true => ToEngine | Some false => ToDefault end.
