(** Model of the whole server: namespaces, parent namespaces, connections and the lifecycle of the
    sockets.  Source: socket/server.go, socket/client.go, socket/namespace.go,
    socket/parent-namespace.go, socket/parent-broadcast-adapter.go, socket/socket.go.

    Objects are indices into lists that only grow ([c_socks], [c_nsps], ...), so two objects with the
    same id or name are distinguished, as Go pointers are.  Every externally visible effect is logged
    together with the state in which it happens.

    Granularity: one step is one call of the application, one packet, one event of a connection, one
    timer or one of the goroutines the code starts; the goroutines run later, in any order.  What can
    happen in the middle of these functions is in [LifeConc.v] (including what a handler does that runs
    inside them).
    Simplifications: the in-memory adapter is used, RestoreSession is an oracle ([x_prev]: any session, see
    [Recovery.v] for the real one) and PersistSession is only logged; acknowledgements, volatile packets,
    socket middlewares and catch-all listeners' order are in the other models. *)
From Coq Require Import Ascii.
From Verif Require Import Base GoTypes Rooms Adapter Session.

(** socket/socket.go:85-123 *)
Record sock := Sock {
  sk_id : sid; sk_nsp : nat; sk_client : nat;
  sk_connected : bool; sk_can_join : bool; sk_recovered : bool
}.
(** socket/namespace.go:60-88; [np_parent]: the parent namespace that created it; [np_on]: listeners of
    the connect event; [np_fns]: middlewares. *)
Record nspc := Nspc {
  np_name : string; np_parent : option nat;
  np_reg : registry; np_sockets : gmap sid nat;
  np_on : list nat; np_fns : list nat
}.
(** socket/client.go:15-29; [cl_open]: conn.ReadyState() == "open"; [cl_timer]: the connect timer is armed. *)
Record client := Client {
  cl_id : string; cl_p3 : bool; cl_open : bool;
  cl_sockets : gmap sid nat; cl_nsps : gmap string nat; cl_timer : bool
}.
(** Of with a regular expression or with a function, socket/server.go:543-571. *)
Inductive matcher := MRegex (accepts : string → bool) | MFun.
(** socket/parent-namespace.go:32-37 *)
Record parent := Parent { pa_match : matcher; pa_children : gset nat; pa_on : list nat; pa_fns : list nat }.
(** The server, socket/server.go:60-100: [c_reg] is _nsps; [c_tasks] the goroutines started at
    client.go:215 that have not run yet. *)
Record core := Core {
  c_socks : list sock; c_nsps : list nspc; c_clients : list client; c_parents : list parent;
  c_reg : gmap string nat; c_tasks : list (nat * packet)
}.

(** Visible effects. *)
Inductive eff :=
  | EWrite (c : nat) (p : packet)               (* packet handed to the connection of client c *)
  | EConnect (k : nat) (fns : list nat)         (* connect event of the namespace, with its listeners *)
  | EConnection (k : nat)                       (* connection event *)
  | EDisconnecting (k : nat) (reason : string)
  | EPersist (k : nat)                          (* PersistSession *)
  | EDisconnect (k : nat) (reason : string)
  | EAny (k : nat) (p : packet)                 (* catch-all listeners called *)
  | EDispatch (k : nat) (p : packet)            (* handlers of the event called *)
  | EAck (k : nat) (p : packet)                 (* acknowledgement received *)
  | EErr (k : nat)                              (* error event *)
  | ENewNsp (n : nat)                           (* new_namespace event *)
  | EHangup (c : nat).                          (* conn.Close(false) *)
Definition sys : Type := core * list (core * eff).

(** Iteration orders of one step. *)
Record sords := SOrds {
  so_apply : orders;                            (* rooms, ids, sids of apply; rooms left by DelAll *)
  so_client : nat → order;                      (* c.sockets.Range *)
  so_nsps : order;                              (* s._nsps.Range *)
  so_nsock : string → order;                    (* nsp.Sockets().Range *)
  so_parents : list nat → list nat;             (* s.parentNsps.Range, s.parentNamespacesFromRegExp.Range *)
  so_children : gset nat → list nat             (* p.children.Keys() *)
}.

(** Primitive updates. *)
Definition on_core (f : core → core) (s : sys) : sys := (f s.1, s.2).
Definition log (e : eff) (s : sys) : sys := (s.1, s.2 ++ [(s.1, e)]).
Definition set_socks v x := Core v (c_nsps x) (c_clients x) (c_parents x) (c_reg x) (c_tasks x).
Definition set_nsps v x := Core (c_socks x) v (c_clients x) (c_parents x) (c_reg x) (c_tasks x).
Definition set_clients v x := Core (c_socks x) (c_nsps x) v (c_parents x) (c_reg x) (c_tasks x).
Definition set_parents v x := Core (c_socks x) (c_nsps x) (c_clients x) v (c_reg x) (c_tasks x).
Definition set_creg v x := Core (c_socks x) (c_nsps x) (c_clients x) (c_parents x) v (c_tasks x).
Definition set_tasks v x := Core (c_socks x) (c_nsps x) (c_clients x) (c_parents x) (c_reg x) v.
Definition upd_sock (k : nat) (f : sock → sock) (s : sys) : sys := on_core (λ x, set_socks (alter f k (c_socks x)) x) s.
Definition upd_nsp (n : nat) (f : nspc → nspc) (s : sys) : sys := on_core (λ x, set_nsps (alter f n (c_nsps x)) x) s.
Definition upd_client (c : nat) (f : client → client) (s : sys) : sys := on_core (λ x, set_clients (alter f c (c_clients x)) x) s.
Definition upd_parent (p : nat) (f : parent → parent) (s : sys) : sys := on_core (λ x, set_parents (alter f p (c_parents x)) x) s.
Definition sk_set (con can : bool) (a : sock) : sock := Sock (sk_id a) (sk_nsp a) (sk_client a) con can (sk_recovered a).
Definition np_set_reg g (n : nspc) := Nspc (np_name n) (np_parent n) g (np_sockets n) (np_on n) (np_fns n).
Definition np_set_sockets m (n : nspc) := Nspc (np_name n) (np_parent n) (np_reg n) m (np_on n) (np_fns n).
Definition np_add_on f (n : nspc) := Nspc (np_name n) (np_parent n) (np_reg n) (np_sockets n) (np_on n ++ [f]) (np_fns n).
Definition np_add_fn f (n : nspc) := Nspc (np_name n) (np_parent n) (np_reg n) (np_sockets n) (np_on n) (np_fns n ++ [f]).
Definition cl_set_tables so ns (c : client) := Client (cl_id c) (cl_p3 c) (cl_open c) so ns (cl_timer c).
Definition cl_no_timer (c : client) := Client (cl_id c) (cl_p3 c) (cl_open c) (cl_sockets c) (cl_nsps c) false.
Definition cl_shut (c : client) := Client (cl_id c) (cl_p3 c) false (cl_sockets c) (cl_nsps c) (cl_timer c).
Definition pa_set_children v (p : parent) := Parent (pa_match p) v (pa_on p) (pa_fns p).
Definition pa_add_on f (p : parent) := Parent (pa_match p) (pa_children p) (pa_on p ++ [f]) (pa_fns p).
Definition pa_add_fn f (p : parent) := Parent (pa_match p) (pa_children p) (pa_on p) (pa_fns p ++ [f]).

(** Reading. *)
Definition is_open (x : core) (c : nat) : bool := match c_clients x !! c with Some cl => cl_open cl | None => false end.
Definition name_of (x : core) (n : nat) : string := match c_nsps x !! n with Some np => np_name np | None => "" end.
Definition reg_of (x : core) (n : nat) : registry := match c_nsps x !! n with Some np => np_reg np | None => empty_registry end.
Definition socks_of (x : core) (n : nat) : gmap sid nat := match c_nsps x !! n with Some np => np_sockets np | None => ∅ end.
Definition csocks_of (x : core) (c : nat) : gmap sid nat := match c_clients x !! c with Some cl => cl_sockets cl | None => ∅ end.
Definition cnsps_of (x : core) (c : nat) : gmap string nat := match c_clients x !! c with Some cl => cl_nsps cl | None => ∅ end.

(** What the environment supplies for one connection: the id GenerateId would return and what
    RestoreSession returns (id, rooms, missed packets). *)
Record arrival := Arrival { x_id : string; x_prev : option (sid * list room * list (list value)) }.

Section system.
  (** Options: connectionStateRecovery set, its skipMiddlewares, cleanupEmptyChildNamespaces. *)
  Context (csr skip clean : bool).

  (** Client._packet, client.go:162-173. *)
  Definition write (c : nat) (p : packet) (s : sys) : sys := if is_open s.1 c then log (EWrite c p) s else s.
  (** Socket.packet, socket.go:453-459. *)
  Definition sock_packet (k : nat) (ty : ptype) (data : list value) (s : sys) : sys :=
    match c_socks s.1 !! k with
    | Some a => write (sk_client a) (Packet ty (name_of s.1 (sk_nsp a)) data None) s
    | None => s
    end.

  (** Socket.Join, socket.go:473-480. *)
  Definition join (k : nat) (rs : list room) (s : sys) : sys :=
    match c_socks s.1 !! k with
    | Some a => if sk_can_join a
                then upd_nsp (sk_nsp a) (λ n, np_set_reg (add_all (sk_id a) (remove_dups rs) (np_reg n)).1 n) s
                else s
    | None => s
    end.
  (** Socket.Leave, socket.go:495-498. *)
  Definition leave (k : nat) (r : room) (s : sys) : sys :=
    match c_socks s.1 !! k with
    | Some a => upd_nsp (sk_nsp a) (λ n, np_set_reg (del true (sk_id a) r (np_reg n)).1 n) s
    | None => s
    end.
  (** Socket.leaveAll, socket.go:501-503. *)
  Definition leave_all (os : sords) (k : nat) (s : sys) : sys :=
    match c_socks s.1 !! k with
    | Some a => upd_nsp (sk_nsp a) (λ n, np_set_reg (del_all true (o_leave (so_apply os) (sk_id a)) (sk_id a) (np_reg n)).1 n) s
    | None => s
    end.
  (** The cleanup callback of a child namespace, parent-namespace.go:90-95.  adapter.Close does nothing. *)
  Definition reap (n : nat) (s : sys) : sys :=
    match c_nsps s.1 !! n with
    | Some np =>
        match np_parent np with
        | Some p =>
            if clean && bool_decide (np_sockets np = ∅)
            then upd_parent p (λ q, pa_set_children (pa_children q ∖ {[n]}) q)
                   (on_core (λ x, set_creg (delete (np_name np) (c_reg x)) x) s)
            else s
        | None => s
        end
    | None => s
    end.
  (** Namespace.Remove, namespace.go:374-381. *)
  Definition remove (k : nat) (s : sys) : sys :=
    match c_socks s.1 !! k with
    | Some a => reap (sk_nsp a) (upd_nsp (sk_nsp a) (λ n, np_set_sockets (delete (sk_id a) (np_sockets n)) n) s)
    | None => s
    end.
  (** Socket._cleanup, socket.go:642-646. *)
  Definition cleanup (os : sords) (k : nat) (s : sys) : sys :=
    upd_sock k (λ a, sk_set (sk_connected a) false a) (remove k (leave_all os k s)).
  (** Client._remove, client.go:143-150. *)
  Definition client_remove (k : nat) (s : sys) : sys :=
    match c_socks s.1 !! k with
    | None => s
    | Some a =>
        match csocks_of s.1 (sk_client a) !! sk_id a with
        | None => s
        | Some j =>
            let nm := match c_socks s.1 !! j with Some b => name_of s.1 (sk_nsp b) | None => "" end in
            upd_client (sk_client a) (λ c, cl_set_tables (delete (sk_id a) (cl_sockets c)) (delete nm (cl_nsps c)) c) s
        end
    end.
  (** Socket._onclose, socket.go:618-639. *)
  Definition onclose (os : sords) (reason : string) (k : nat) (s : sys) : sys :=
    match c_socks s.1 !! k with
    | None => s
    | Some a =>
        if sk_connected a then
          let s := log (EDisconnecting k reason) s in
          let s := if csr && bool_decide (reason ∈ recoverable_reasons) then log (EPersist k) s else s in
          let s := client_remove k (cleanup os k s) in
          log (EDisconnect k reason) (upd_sock k (λ a, sk_set false (sk_can_join a) a) s)
        else s
    end.
  (** Socket.Disconnect(false), socket.go:668-681. *)
  Definition disconnect (os : sords) (k : nat) (s : sys) : sys :=
    match c_socks s.1 !! k with
    | Some a => if sk_connected a then onclose os "server namespace disconnect" k (sock_packet k DISCONNECT [] s) else s
    | None => s
    end.
  (** c.sockets.Range(f): the keys present at the start, each looked up when it is reached. *)
  Definition range_client (os : sords) (c : nat) (f : nat → sys → sys) (s : sys) : sys :=
    foldl (λ s i, match csocks_of s.1 c !! i with Some k => f k s | None => s end) s
      (so_client os c (dom (csocks_of s.1 c))).
  (** Client.onclose, client.go:233-247. *)
  Definition client_onclose (os : sords) (c : nat) (reason : string) (s : sys) : sys :=
    let s := upd_client c cl_no_timer s in
    let s := range_client os c (onclose os reason) s in
    upd_client c (λ cl, cl_set_tables ∅ (cl_nsps cl) cl) s.
  (** conn.Close(false): ReadyState() is no longer "open". *)
  Definition hangup (c : nat) (s : sys) : sys := upd_client c cl_shut (log (EHangup c) s).
  (** Client.close, client.go:153-159. *)
  Definition client_close (os : sords) (c : nat) (s : sys) : sys :=
    if is_open s.1 c then client_onclose os c "forced server close" (hangup c s) else s.
  (** Client._disconnect, client.go:133-140. *)
  Definition client_disconnect (os : sords) (c : nat) (s : sys) : sys :=
    let s := range_client os c (disconnect os) s in
    client_close os c (upd_client c (λ cl, cl_set_tables ∅ (cl_nsps cl) cl) s).
  (** Socket.Disconnect(status), socket.go:668-681. *)
  Definition disconnect_st (os : sords) (status : bool) (k : nat) (s : sys) : sys :=
    match c_socks s.1 !! k with
    | Some a => if sk_connected a then if status then client_disconnect os (sk_client a) s else disconnect os k s else s
    | None => s
    end.

  (** Namespace._doConnect, namespace.go:348-364, with Socket._onconnect (socket.go:509-531) and the
      callback of Client.doConnect (client.go:122-129). *)
  Definition do_connect (k : nat) (s : sys) : sys :=
    match c_socks s.1 !! k with
    | None => s
    | Some a =>
        let s := upd_nsp (sk_nsp a) (λ n, np_set_sockets (<[sk_id a := k]> (np_sockets n)) n) s in
        let s := upd_sock k (λ a, sk_set true (sk_can_join a) a) s in
        let s := join k [sk_id a] s in
        let p3 := match c_clients s.1 !! sk_client a with Some cl => cl_p3 cl | None => false end in
        let s := sock_packet k CONNECT (if p3 then [] else [VStr (sk_id a)]) s in
        let s := upd_client (sk_client a) (λ c, cl_no_timer
                   (cl_set_tables (<[sk_id a := k]> (cl_sockets c)) (<[name_of s.1 (sk_nsp a) := k]> (cl_nsps c)) c)) s in
        let fns := match c_nsps s.1 !! sk_nsp a with Some n => np_on n | None => [] end in
        log (EConnection k) (log (EConnect k fns) s)
    end.

  (** NewSocket (socket.go:207-249) for client [c] in namespace [n], through _createSocket
      (namespace.go:331-346). *)
  Definition create_socket (c n : nat) (x : arrival) (s : sys) : sys :=
    let k := length (c_socks s.1) in
    match (if csr then x_prev x else None) with
    | Some (i, rs, missed) =>
        let s := on_core (λ y, set_socks (c_socks y ++ [Sock i n c false true true]) y) s in
        let s := foldl (λ s r, join k [r] s) s rs in
        foldl (λ s d, sock_packet k EVENT d s) s missed
    | None =>
        let i := match c_clients s.1 !! c with
                 | Some cl => if cl_p3 cl then if decide (name_of s.1 n = "/") then cl_id cl else name_of s.1 n +:+ "#" +:+ cl_id cl else x_id x
                 | None => x_id x
                 end in
        on_core (λ y, set_socks (c_socks y ++ [Sock i n c false true false]) y) s
    end.
  (** Namespace.Add, namespace.go:267-303, up to the start of the middlewares (or to the end when they
      are skipped). *)
  Definition add (c n : nat) (x : arrival) (s : sys) : sys :=
    let k := length (c_socks s.1) in
    let rec := csr && bool_decide (is_Some (x_prev x)) in
    let s := create_socket c n x s in
    if skip && rec && is_open s.1 c then do_connect k s else s.
  (** The goroutine started when the middlewares are done, namespace.go:276-301. *)
  Definition verdict (os : sords) (k : nat) (err : option value) (s : sys) : sys :=
    match c_socks s.1 !! k with
    | None => s
    | Some a =>
        if is_open s.1 (sk_client a) then
          match err with
          | Some e => sock_packet k CONNECT_ERROR [e] (cleanup os k s)
          | None => do_connect k s
          end
        else cleanup os k s
    end.

  (** NewNamespace (namespace.go:106-112) and Store; [new_namespace] unless it is "/". *)
  Definition new_nsp (np : nspc) (s : sys) : sys :=
    let n := length (c_nsps s.1) in
    on_core (λ y, set_creg (<[np_name np := n]> (c_reg y)) (set_nsps (c_nsps y ++ [np]) y)) s.
  (** ParentNamespace.CreateChild, parent-namespace.go:77-103. *)
  Definition create_child (p : nat) (name : string) (s : sys) : sys :=
    match c_parents s.1 !! p with
    | None => s
    | Some q =>
        let n := length (c_nsps s.1) in
        let s := upd_parent p (λ q, pa_set_children ({[n]} ∪ pa_children q) q) s in
        log (ENewNsp n) (new_nsp (Nspc name (Some p) empty_registry ∅ (pa_on q) (pa_fns q)) s)
    end.
  (** The leading slash, server.go:573-584. *)
  Definition norm (name : string) : string :=
    match name with
    | "" => "/"
    | String ch _ => if decide (ch = "/"%char) then name else "/" +:+ name
    end.
  (** Does parent [p], if given by a regular expression, match? *)
  Definition regex_matches (x : core) (name : string) (p : nat) : bool :=
    match c_parents x !! p with Some q => match pa_match q with MRegex m => m name | MFun => false end | None => false end.
  Definition first_match (os : sords) (x : core) (name : string) : option nat :=
    head (filter (regex_matches x name) (so_parents os (seq 0 (length (c_parents x))))).
  (** Server.Of with a string, server.go:573-612. *)
  Definition of_name (os : sords) (raw : string) (fn : option nat) (s : sys) : sys :=
    let name := norm raw in
    let listen s := match fn with
                    | Some f => match c_reg s.1 !! name with Some n => upd_nsp n (np_add_on f) s | None => s end
                    | None => s
                    end in
    match c_reg s.1 !! name with
    | Some _ => listen s
    | None =>
        match first_match os s.1 name with
        | Some p => create_child p name s
        | None =>
            let n := length (c_nsps s.1) in
            let s := new_nsp (Nspc name None empty_registry ∅ [] []) s in
            listen (if decide (name = "/") then s else log (ENewNsp n) s)
        end
    end.
  (** Server.Of with a regular expression or a function, server.go:543-571. *)
  Definition of_parent (m : matcher) (fn : option nat) (s : sys) : sys :=
    on_core (λ x, set_parents (c_parents x ++ [Parent m ∅ (match fn with Some f => [f] | None => [] end) []]) x) s.

  (** Client.doConnect, client.go:120-130. *)
  Definition client_do_connect (os : sords) (c : nat) (name : string) (x : arrival) (s : sys) : sys :=
    let s := of_name os name None s in
    match c_reg s.1 !! norm name with Some n => add c n x s | None => s end.
  (** The next callback of _checkNamespace with a positive answer of parent [p], server.go:211-221. *)
  Definition accept (os : sords) (c p : nat) (name : string) (x : arrival) (s : sys) : sys :=
    let s := match c_reg s.1 !! name with Some _ => s | None => create_child p name s end in
    client_do_connect os c name x s.
  (** Client.connect's callback with nil, client.go:102-111. *)
  Definition deny (c : nat) (name : string) (s : sys) : sys :=
    write c (Packet CONNECT_ERROR name [VMap [("message", VStr "Invalid namespace")]] None) s.
  (** The answer of parent [p]: a regular expression answers at once; a function may answer at once
      ([Some]) or later ([None]; see [OAnswer]).  Simplification: it answers at once at most once. *)
  Definition answer (x : core) (ans : nat → option bool) (name : string) (p : nat) : option bool :=
    match c_parents x !! p with
    | Some q => match pa_match q with MRegex m => Some (m name) | MFun => ans p end
    | None => Some false
    end.
  (** The loop of _checkNamespace, server.go:205-225: [Some p] if parent p accepts. *)
  Fixpoint check_loop (x : core) (ans : nat → option bool) (name : string) (ps : list nat) : option nat :=
    match ps with
    | [] => None
    | p :: ps =>
        match answer x ans name p with
        | Some true => Some p
        | Some false => check_loop x ans name ps
        | None => None
        end
    end.
  (** Client.connect, client.go:93-113, and Server._checkNamespace, server.go:203-229. *)
  Definition connect (os : sords) (c : nat) (name : string) (ans : nat → option bool) (x : arrival) (s : sys) : sys :=
    match c_reg s.1 !! name with
    | Some _ => client_do_connect os c name x s
    | None =>
        match check_loop s.1 ans name (so_parents os (seq 0 (length (c_parents s.1)))) with
        | Some p => accept os c p name x s
        | None => deny c name s
        end
    end.

  (** Client.ondecoded, client.go:199-221.  [name] is the namespace after the protocol-dependent parsing. *)
  Definition ondecoded (os : sords) (c : nat) (p : packet) (ans : nat → option bool) (x : arrival) (s : sys) : sys :=
    match cnsps_of s.1 c !! p_nsp p with
    | None => if decide (p_type p = CONNECT) then connect os c (p_nsp p) ans x s else client_close os c s
    | Some k => if decide (p_type p = CONNECT ∨ p_type p = CONNECT_ERROR) then client_close os c s
                else on_core (λ y, set_tasks (c_tasks y ++ [(k, p)]) y) s
    end.
  (** Socket._onpacket, socket.go:534-597, for the goroutine started by ondecoded.  The handlers are
      called if the socket is still connected (socket.go:761). *)
  Definition onpacket (os : sords) (k : nat) (p : packet) (s : sys) : sys :=
    match p_type p with
    | EVENT | BINARY_EVENT =>
        let s := log (EAny k p) s in
        match c_socks s.1 !! k with Some a => if sk_connected a then log (EDispatch k p) s else s | None => s end
    | ACK | BINARY_ACK => log (EAck k p) s
    | DISCONNECT => onclose os "client namespace disconnect" k s
    | CONNECT | CONNECT_ERROR => s
    end.

  (** apply on the adapter of namespace [n], adapter.go:269-306. *)
  Definition apply_nsp (os : sords) (n : nat) (cb : nat → sys → sys) (opts : option bopts) (s : sys) : sys :=
    let rooms := match opts with Some o => bo_rooms o | None => Some ∅ end in
    let except := match opts with Some o => bo_except o | None => Some ∅ end in
    (apply_sockets (λ s, reg_of s.1 n) (λ s, socks_of s.1 n) cb
       (o_rooms (so_apply os)) (o_ids (so_apply os)) (o_sids (so_apply os)) rooms except s).1.
  (** FetchSockets on the adapter of namespace [n], adapter.go:236-244. *)
  Definition fetch (os : sords) (n : nat) (opts : option bopts) (s : sys) : list nat :=
    let rooms := match opts with Some o => bo_rooms o | None => Some ∅ end in
    let except := match opts with Some o => bo_except o | None => Some ∅ end in
    (apply_sockets (λ t : sys * list nat, reg_of t.1.1 n) (λ t, socks_of t.1.1 n) (λ k t, (t.1, t.2 ++ [k]))
       (o_rooms (so_apply os)) (o_ids (so_apply os)) (o_sids (so_apply os)) rooms except (s, [])).1.2.
  (** WriteToEngine for one socket, adapter.go:161-163: no test of ReadyState (the engine drops the
      packet if the connection is closed). *)
  Definition put (p : packet) (k : nat) (s : sys) : sys :=
    match c_socks s.1 !! k with Some a => log (EWrite (sk_client a) p) s | None => s end.
  (** Broadcast, adapter.go:145-164: packet.Nsp is set to the adapter's namespace. *)
  Definition broadcast (os : sords) (n : nat) (ty : ptype) (data : list value) (opts : option bopts) (s : sys) : sys :=
    apply_nsp os n (put (Packet ty (name_of s.1 n) data None)) opts s.
  (** Broadcast with the session-aware adapter: the identifier is appended to the data of the packet
      (session-aware-adapter.go:124-144). *)
  Definition offset_data (off : string) (data : list value) (opts : option bopts) : list value :=
    if csr && storable (Bcast EVENT false data opts) then data ++ [VStr off] else data.
  (** Broadcast through a parent namespace, parent-broadcast-adapter.go:39-43: the same packet object
      is given to the adapters of the children, one after the other. [off i]: the identifier generated by
      child i. *)
  Definition parent_broadcast (os : sords) (p : nat) (data : list value) (off : nat → string) (opts : option bopts) (s : sys) : sys :=
    match c_parents s.1 !! p with
    | None => s
    | Some q =>
        (foldl (λ acc n, let d := offset_data (off n) acc.2 opts in (broadcast os n EVENT d opts acc.1, d))
           (s, data) (so_children os (pa_children q))).1
    end.
  (** ParentNamespace.Emit, parent-namespace.go:70-75: one packet per child. *)
  Definition parent_emit (os : sords) (p : nat) (data : list value) (off : nat → string) (s : sys) : sys :=
    let opts := Some (BOpts (Some ∅) (Some ∅) (Some no_flags)) in
    match c_parents s.1 !! p with
    | None => s
    | Some q => foldl (λ s n, broadcast os n EVENT (offset_data (off n) data opts) opts s) s (so_children os (pa_children q))
    end.
  (** Socket.Emit without acknowledgement, socket.go:280-314. *)
  Definition emit (os : sords) (k : nat) (data : list value) (off : string) (s : sys) : sys :=
    match c_socks s.1 !! k with
    | None => s
    | Some a =>
        if csr then
          let opts := Some (BOpts (Some {[sk_id a]}) (Some ∅) (Some no_flags)) in
          broadcast os (sk_nsp a) EVENT (offset_data off data opts) opts s
        else sock_packet k EVENT data s
    end.
  (** Server.Close, server.go:617-626.  The engine then closes every connection ([OTransport]). *)
  Definition shutdown (os : sords) (s : sys) : sys :=
    foldl (λ s name,
      match c_reg s.1 !! name with
      | None => s
      | Some n => foldl (λ s i, match socks_of s.1 n !! i with Some k => onclose os "server shutting down" k s | None => s end)
                    s (so_nsock os name (dom (socks_of s.1 n)))
      end) s (so_nsps os (dom (c_reg s.1))).
  (** Client.onerror, client.go:224-230. *)
  Definition client_onerror (os : sords) (c : nat) (s : sys) : sys :=
    hangup c (range_client os c (λ k s, log (EErr k) s) s).

  Inductive op :=
    | OOpen (id : string) (p3 : bool) (ans : nat → option bool) (x : arrival)   (* Server.onconnection, server.go:515-522 *)
    | OPacket (c : nat) (p : packet) (ans : nat → option bool) (x : arrival)    (* a packet is decoded *)
    | OAnswer (c p : nat) (name : string) (x : arrival)   (* a parent's function accepts [name] for client c, later *)
    | OVerdict (k : nat) (err : option value)             (* the middlewares of socket k are done *)
    | OTask (i : nat)                                     (* the i-th waiting goroutine runs *)
    | OTimer (c : nat)                                    (* the connect timer, client.go:78-85; a timer that has closed the client is off *)
    | OTransport (c : nat) (reason : string)              (* the connection is closed *)
    | OError (c : nat)                                    (* error of the connection or of the decoder *)
    | OJoin (k : nat) (rs : list room)
    | OLeave (k : nat) (r : room)
    | ODisconnect (k : nat) (status : bool)
    | OEmit (k : nat) (data : list value) (off : string)
    | OOf (raw : string) (fn : option nat)
    | OOfParent (m : matcher) (fn : option nat)
    | OOnParent (p f : nat)                               (* parent.On("connect", f) *)
    | OUseParent (p f : nat)                              (* parent.Use(f) *)
    | OUse (n f : nat)                                    (* namespace.Use(f) *)
    | OBroadcast (n : nat) (data : list value) (off : string) (opts : option bopts)
    | OBulkJoin (n : nat) (rs : list room) (opts : option bopts)
    | OBulkLeave (n : nat) (rs : list room) (opts : option bopts)
    | OBulkDisconnect (n : nat) (status : bool) (opts : option bopts)
    | OParentBroadcast (p : nat) (data : list value) (off : nat → string) (opts : option bopts)
    | OParentEmit (p : nat) (data : list value) (off : nat → string)
    | OShutdown.

  Definition step (e : sords * op) (s : sys) : sys :=
    let os := e.1 in
    match e.2 with
    | OOpen id p3 ans x =>
        let c := length (c_clients s.1) in
        let s := on_core (λ y, set_clients (c_clients y ++ [Client id p3 true ∅ ∅ true]) y) s in
        if p3 then connect os c "/" ans x s else s
    | OPacket c p ans x => if is_open s.1 c then ondecoded os c p ans x s else s
    | OAnswer c p name x => accept os c p name x s
    | OVerdict k err => verdict os k err s
    | OTask i => match c_tasks s.1 !! i with
                 | Some (k, p) => onpacket os k p (on_core (λ y, set_tasks (delete i (c_tasks y)) y) s)
                 | None => s
                 end
    | OTimer c => match c_clients s.1 !! c with
                  | Some cl => if cl_timer cl && bool_decide (cl_nsps cl = ∅) then client_close os c s else s
                  | None => s
                  end
    | OTransport c reason => client_onclose os c reason (upd_client c cl_shut s)
    | OError c => client_onerror os c s
    | OJoin k rs => join k rs s
    | OLeave k r => leave k r s
    | ODisconnect k status => disconnect_st os status k s
    | OEmit k data off => emit os k data off s
    | OOf raw fn => of_name os raw fn s
    | OOfParent m fn => of_parent m fn s
    | OOnParent p f => upd_parent p (pa_add_on f) s
    | OUseParent p f => upd_parent p (pa_add_fn f) s
    | OUse n f => upd_nsp n (np_add_fn f) s
    | OBroadcast n data off opts => broadcast os n EVENT (offset_data off data opts) opts s
    | OBulkJoin n rs opts => apply_nsp os n (λ k s, join k rs s) opts s
    | OBulkLeave n rs opts => apply_nsp os n (λ k s, foldl (λ s r, leave k r s) s rs) opts s
    | OBulkDisconnect n status opts => apply_nsp os n (disconnect_st os status) opts s
    | OParentBroadcast p data off opts => parent_broadcast os p data off opts s
    | OParentEmit p data off => parent_emit os p data off s
    | OShutdown => shutdown os s
    end.

  (** The server after its constructor (server.go:163): the namespace "/" exists. *)
  Definition init : sys := (Core [] [Nspc "/" None empty_registry ∅ [] []] [] [] {["/" := 0]} [], []).
  Definition run (h : list (sords * op)) : sys := foldl (λ s e, step e s) init h.
End system.
