(** Model of the credentials in a CONNECT packet.  Source: socket/namespace.go:305-346,
    socket/namespace-type.go:194-225, socket/client.go:204-211. *)
From Verif Require Import Base GoTypes.

(** The auth payload. *)
Inductive auth :=
  | AuthMap (m : gmap string value)            (* map[string]any *)
  | AuthStrings (m : gmap string string)       (* map[string]string *)
  | AuthQuery (m : gmap string (list string))  (* url.Values, for protocol 3: client.go:205-207 *)
  | AuthOther.                                 (* nil, a list, a string, ... *)
Record session_data := SessionData { sd_pid : option value; sd_offset : option value }.
(** parseSessionData, namespace.go:305-329. *)
Definition parse_session_data (a : auth) : option session_data :=
  match a with
  | AuthMap m => Some (SessionData (m !! "pid") (m !! "offset"))
  | AuthStrings m => Some (SessionData (VStr <$> m !! "pid") (VStr <$> m !! "offset"))
  | _ => None
  end.
(** GetPid and GetOffset, namespace-type.go:199-225; [Some VNil] is a present nil. *)
Definition get_string (v : option value) : string * bool :=
  let s := match v with
           | Some (VStrs l) => match last l with Some s => s | None => "" end
           | Some (VStr s) => s
           | _ => ""
           end in
  (s, Nat.ltb 0 (String.length s)).
(** _createSocket, namespace.go:331-346: the call of RestoreSession, if any. *)
Definition restore_call (csr : bool) (a : auth) : option (string * string) :=
  match parse_session_data a with
  | Some sd =>
      let p := get_string (sd_pid sd) in
      let o := get_string (sd_offset sd) in
      if p.2 && o.2 && csr then Some (p.1, o.1) else None
  | None => None
  end.
(** What _createSocket builds: from the session, or a fresh one; [restore]: the result of RestoreSession
    ([None]: nil or an error). *)
Inductive created (S : Type) := Recovered (s : S) | Fresh.
Arguments Recovered {S} s. Arguments Fresh {S}.
Definition create_socket {S} (csr : bool) (restore : string → string → option S) (a : auth) : created S :=
  match restore_call csr a with
  | Some (p, o) => match restore p o with Some s => Recovered s | None => Fresh end
  | None => Fresh
  end.
