(** Model of the HTTP answers given when serving the client bundle: status, headers and body.
    Source: socket/server.go:28, 375-503.  On top of [Serve].
    Not modelled: the CORS middleware (server.go:380-383), which may add headers of its own before [serve] runs;
    what net/http adds to or removes from the answer (Date, Content-Length, the body of an answer to HEAD);
    the error returns of gzip.NewWriterLevel, flate.NewWriter and zstd.NewWriter, which depend on the level only
    and do not occur at the levels used. *)
From Coq Require Import Ascii.
From Verif Require Import Base GoTypes Serve.

(** What reading an opened file gives: the bytes up to its end or up to the first error; [fl_whole]: there was
    no error.  io.Copy (server.go:465, 475, 485, 495, 499) returns the error, which is dropped.  A directory is
    opened without an error and gives no bytes. *)
Record file := File { fl_bytes : string; fl_whole : bool }.
(** The formats written by the writers: the response itself, gzip.NewWriterLevel (RFC 1952), flate.NewWriter
    (RFC 1951, as the package says), brotli.NewWriterLevel (RFC 7932), zstd.NewWriter (RFC 8878); RFC 1950 is
    here to name it. *)
Inductive format := Verbatim | Rfc1952 | Rfc1951 | Rfc1950 | Rfc7932 | Rfc8878.
(** An answer: the body is given by the bytes before compression and the format they are written in. *)
Record response := Response { rs_status : N; rs_headers : gmap string string; rs_format : format; rs_bytes : string }.

(** strings.Contains. *)
Fixpoint contains (n h : text) : bool :=
  match strip n h with
  | Some _ => true
  | None => match h with [] => false | _ :: h => contains n h end
  end.
(** utils.Contains of engine.io: the first of the needles which is in the haystack, or the empty string. *)
Fixpoint contained (h : text) (ns : list string) : string :=
  match ns with
  | [] => ""
  | n :: ns => if contains (txt n) h then n else contained h ns
  end.
(** http.Error: the headers already set stay. *)
Definition http_error (status : N) (msg : string) (hs : gmap string string) : response :=
  Response status (<["Content-Type" := "text/plain; charset=utf-8"]> (<["X-Content-Type-Options" := "nosniff"]> hs)) Verbatim
    (msg ++ String (Ascii.ascii_of_nat 10) EmptyString).
(** sendFile after os.Open, server.go:455-502. *)
Definition write_file (accept : text) (hs : gmap string string) (f : file) : response :=
  let encoding := contained accept ["gzip"; "deflate"; "br"; "zstd"] in
  if decide (encoding = "br") then Response 200 (<["Content-Encoding" := "br"]> hs) Rfc7932 (fl_bytes f)
  else if decide (encoding = "gzip") then Response 200 (<["Content-Encoding" := "gzip"]> hs) Rfc1952 (fl_bytes f)
  else if decide (encoding = "deflate") then Response 200 (<["Content-Encoding" := "deflate"]> hs) Rfc1951 (fl_bytes f)
  else if decide (encoding = "zstd") then Response 200 (<["Content-Encoding" := "zstd"]> hs) Rfc8878 (fl_bytes f)
  else Response 200 hs Verbatim (fl_bytes f).
(** The headers set by serve, server.go:402, 423-429. *)
Definition file_headers (filename : text) : gmap string string :=
  <["ETag" := etag]>
    (<["Content-Type" := if contains (txt ".map") filename then "application/json; charset=utf-8"
                         else "application/javascript; charset=utf-8"]>
      (<["Cache-Control" := "public, max-age=0"]> ∅)).
(** The handler, server.go:375-503; [fs]: what os.Open finds; [accept]: the Accept-Encoding header; [None]: the
    request goes on to another handler. *)
Definition respond (fs : list text → option file) (prefix : text) (slash_opt : option bool) (install : option (list text))
    (r : request) (accept : text) : option response :=
  let hs := file_headers (base (rq_path r)) in
  match handle prefix slash_opt install r with
  | NotAllowed => Some (http_error 405 "Method Not Allowed" ∅)
  | NotModified => Some (Response 304 ∅ Verbatim "")
  | NotFound => Some (http_error 404 "file not found" hs)
  | Opened p =>
      match fs p with
      | None => Some (http_error 404 "file not found" hs)
      | Some f => Some (write_file accept hs f)
      end
  | ToEngine | ToDefault => None
  end.
