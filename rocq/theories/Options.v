(** Model of the options.  Source: socket/server-options.go:74-107, adapter/cluster-adapter-options.go:31-48,
    socket/server.go:128-177, adapter/cluster-adapter-with-heartbeat.go:56-73.
    The options inherited from engine.io (and their Assign) are outside the repository; of these only Path is
    kept.  Adapter builders, parsers and CORS settings are numbers. *)
From Coq Require Import Ascii.
From Verif Require Import Base GoTypes.

Record csr_opts := CsrOpts { co_max : option Z; co_skip : option bool }.
(** ServerOptions; [None] is the nil pointer. *)
Record sopts := SOpts {
  so_serve : option bool; so_adapter : option nat; so_parser : option nat; so_timeout : option Z;
  so_csr : option csr_opts; so_cleanup : option bool; so_path : option string }.
(** DefaultServerOptions, server-options.go:74-76. *)
Definition default_sopts : sopts := SOpts None None None None None None None.
(** The getters, e.g. ServeClient(): the zero value if not set. *)
Definition serve_client (s : sopts) : bool := default false (so_serve s).
Definition connect_timeout (s : sopts) : Z := default 0%Z (so_timeout s).
Definition cleanup_empty (s : sopts) : bool := default false (so_cleanup s).
Definition max_disconnection (c : csr_opts) : Z := default 0%Z (co_max c).
Definition skip_middlewares (c : csr_opts) : bool := default false (co_skip c).
(** The setters. *)
Definition set_serve v s := SOpts (Some v) (so_adapter s) (so_parser s) (so_timeout s) (so_csr s) (so_cleanup s) (so_path s).
Definition set_adapter v s := SOpts (so_serve s) v (so_parser s) (so_timeout s) (so_csr s) (so_cleanup s) (so_path s).
Definition set_parser v s := SOpts (so_serve s) (so_adapter s) v (so_timeout s) (so_csr s) (so_cleanup s) (so_path s).
Definition set_connect_timeout v s := SOpts (so_serve s) (so_adapter s) (so_parser s) (Some v) (so_csr s) (so_cleanup s) (so_path s).
Definition set_csr v s := SOpts (so_serve s) (so_adapter s) (so_parser s) (so_timeout s) v (so_cleanup s) (so_path s).
Definition set_cleanup v s := SOpts (so_serve s) (so_adapter s) (so_parser s) (so_timeout s) (so_csr s) (Some v) (so_path s).
Definition is_set {A} (o : option A) : bool := match o with Some _ => true | None => false end.
(** Assign, server-options.go:78-107 (the embedded Assigns of engine.io are not included). *)
Definition assign (s : sopts) (data : option sopts) : sopts :=
  match data with
  | None => s
  | Some d =>
      let s := if is_set (so_serve d) then set_serve (serve_client d) s else s in
      let s := if is_set (so_adapter d) then set_adapter (so_adapter d) s else s in
      let s := if is_set (so_parser d) then set_parser (so_parser d) s else s in
      let s := if is_set (so_timeout d) then set_connect_timeout (connect_timeout d) s else s in
      let s := if is_set (so_csr d) then set_csr (so_csr d) s else s in
      let s := if is_set (so_cleanup d) then set_cleanup (cleanup_empty d) s else s in
      s
  end.

(** What Construct makes of the options, server.go:128-177.  Adapter 0 is AdapterBuilder, 1 is
    SessionAwareAdapterBuilder; parser 0 is parser.NewParser(). *)
Record server_cfg := ServerCfg {
  sc_path : string; sc_timeout : Z; sc_serve : bool; sc_parser : nat; sc_adapter : nat; sc_csr : option csr_opts; sc_cleanup : bool }.
(** strings.TrimRight(v, "/"). *)
Fixpoint trim_right (l : list Ascii.ascii) : list Ascii.ascii :=
  match l with
  | [] => []
  | c :: l => match trim_right l with [] => if decide (c = "/"%char) then [] else [c] | l' => c :: l' end
  end.
Definition trim_slash (s : string) : string := string_of_list_ascii (trim_right (list_ascii_of_string s)).
Definition construct (opts : option sopts) : server_cfg :=
  let o := default default_sopts opts in
  let path := if is_set (so_path o) then default "" (so_path o) else "/socket.io" in
  let timeout := if is_set (so_timeout o) then connect_timeout o else 45000%Z in
  let par := match so_parser o with Some p => p | None => 0 end in
  let ac := match so_adapter o with
            | Some a => (a, so_csr o)
            | None =>
                match so_csr o with
                | Some c => (1, Some (CsrOpts (Some (match co_max c with None => 120000%Z | Some m => m end)) (Some (match co_skip c with None => true | Some b => b end))))
                | None => (0, None)
                end
            end in
  ServerCfg (trim_slash path) timeout (serve_client o) par ac.1 ac.2 (cleanup_empty o).

(** ClusterAdapterOptions. *)
Record copts := COpts { cp_interval : option Z; cp_timeout : option Z }.
(** Assign, cluster-adapter-options.go:35-48. *)
Definition cassign (s : copts) (data : option copts) : copts :=
  match data with
  | None => s
  | Some d =>
      let s := if is_set (cp_interval d) then COpts (Some (default 0%Z (cp_interval d))) (cp_timeout s) else s in
      let s := if is_set (cp_timeout d) then COpts (cp_interval s) (Some (default 0%Z (cp_timeout d))) else s in
      s
  end.
(** SetOpts and the defaults of Construct, cluster-adapter-with-heartbeat.go:56-73. *)
Definition cconstruct (data : option copts) : Z * Z :=
  let s := cassign (COpts None None) data in
  (match cp_interval s with None => 5000%Z | Some v => v end, match cp_timeout s with None => 10000%Z | Some v => v end).
