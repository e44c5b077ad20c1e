(** Model of how a server is attached to HTTP servers and engines, and of what Close closes.
    Source: socket/server.go:287-372 (Attach, ServeHandler, initEngine), 508-522 (Bind, onconnection), 617-641 (Close).
    Not modelled here: the options passed to the engine (Options.v), the routes of the HTTP server (Serve.v), what Close does to the sockets (System.v).
    Outside the repository: engine.Attach(srv, opts) makes an engine that closes when srv emits "close"; HttpServer.Close emits it; an engine emits
    "connection" only while it is open, and calls its listeners in order. *)
From Verif Require Import Base.

(** The engines that the server makes, numbered in order, and those that the application passes to Bind. *)
Inductive eid := Own (n : nat) | Foreign (n : nat).
Global Instance eid_dec : EqDecision eid. Proof. solve_decision. Defined.
(** An engine of the server: the HTTP server it was attached to; whether it is open. *)
Record eng := Eng { eg_http : option nat; eg_open : bool }.
(** [at_http]: s.httpServer; [at_engine]: s.engine; [at_eio]: s.eio; [at_heard]: the registrations of s.onconnection; [at_closed]: engines of the
    application that were closed; [at_clients]: the engine of each client made; [at_given]: what ServeHandler has returned. *)
Record astate := AState {
  at_http : option nat; at_engine : option eid; at_eio : option nat; at_made : list eng; at_heard : list eid; at_closed : list nat;
  at_clients : list eid; at_given : list nat }.
Definition at0 : astate := AState None None None [] [] [] [] [].
Inductive aop :=
  | AAttach (h : nat)        (* Attach/Listen on the HTTP server [h]; a port or address is a new one *)
  | AHandler                 (* ServeHandler *)
  | ABind (e : nat)          (* Bind *)
  | AClose
  | AConn (e : eid).         (* a connection comes in through engine [e] *)
Global Instance aop_dec : EqDecision aop. Proof. solve_decision. Defined.

(** Bind, server.go:508-512. *)
Definition bind (e : eid) (s : astate) : astate :=
  AState (at_http s) (Some e) (at_eio s) (at_made s) (at_heard s ++ [e]) (at_closed s) (at_clients s) (at_given s).
(** s.eio = engine.Attach(srv, opts) or engine.NewServer(opts). *)
Definition make (h : option nat) (s : astate) : astate :=
  AState (at_http s) (at_engine s) (Some (length (at_made s))) (at_made s ++ [Eng h true]) (at_heard s) (at_closed s) (at_clients s) (at_given s).
(** Attach and initEngine, server.go:287-321, 357-372. *)
Definition attach (h : nat) (s : astate) : astate :=
  let n := length (at_made s) in
  let s := make (Some h) s in
  let s := AState (Some h) (at_engine s) (at_eio s) (at_made s) (at_heard s) (at_closed s) (at_clients s) (at_given s) in
  bind (Own n) s.
Definition give (n : nat) (s : astate) : astate :=
  AState (at_http s) (at_engine s) (at_eio s) (at_made s) (at_heard s) (at_closed s) (at_clients s) (at_given s ++ [n]).
(** ServeHandler, server.go:326-350. *)
Definition handler (s : astate) : astate :=
  match at_eio s with
  | Some n => give n s
  | None => let n := length (at_made s) in give n (bind (Own n) (make None s))
  end.
(** httpServer.Close: the engines attached to it close. *)
Definition close_http (h : nat) (s : astate) : astate :=
  AState (at_http s) (at_engine s) (at_eio s)
    ((λ e, if decide (eg_http e = Some h) then Eng (eg_http e) false else e) <$> at_made s) (at_heard s) (at_closed s) (at_clients s) (at_given s).
(** engine.Close. *)
Definition close_engine (e : eid) (s : astate) : astate :=
  match e with
  | Own n => AState (at_http s) (at_engine s) (at_eio s) (alter (λ e, Eng (eg_http e) false) n (at_made s)) (at_heard s) (at_closed s) (at_clients s) (at_given s)
  | Foreign n => AState (at_http s) (at_engine s) (at_eio s) (at_made s) (at_heard s) (n :: at_closed s) (at_clients s) (at_given s)
  end.
(** Close after the loop over the namespaces, server.go:627-640. *)
Definition close (s : astate) : astate :=
  match at_http s with
  | Some h => close_http h s
  | None => match at_engine s with Some e => close_engine e s | None => s end
  end.
Definition is_open (e : eid) (s : astate) : bool :=
  match e with Own n => match at_made s !! n with Some g => eg_open g | None => false end | Foreign n => bool_decide (n ∉ at_closed s) end.
(** onconnection, server.go:515-522: each registration makes a client. *)
Definition conn (e : eid) (s : astate) : astate :=
  if is_open e s
  then AState (at_http s) (at_engine s) (at_eio s) (at_made s) (at_heard s) (at_closed s) (at_clients s ++ filter (λ x, x = e) (at_heard s)) (at_given s)
  else s.
Definition astep (s : astate) (o : aop) : astate :=
  match o with AAttach h => attach h s | AHandler => handler s | ABind e => bind (Foreign e) s | AClose => close s | AConn e => conn e s end.
Definition arun (h : list aop) : astate := foldl astep at0 h.
