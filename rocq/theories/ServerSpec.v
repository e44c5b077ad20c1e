(** A reference server for C66, without any of the tables of the real one: no adapter, no maps from rooms to ids and from ids to rooms, no
    table of sockets in the namespaces and in the connections.  A socket has a place in its life and a set of rooms; everything else is
    found by looking at all the sockets.  Only what is visible is kept.  The effects of a step are listed in an arbitrary order. *)
From Verif Require Import Base GoTypes Rooms Adapter AdapterSpec Session System.

(** A socket waits for the middlewares, is here, or is gone. *)
Inductive place := Waiting | Here | Gone.
#[global] Instance place_eq_dec : EqDecision place.
Proof. solve_decision. Defined.
Record usock := USock { u_id : sid; u_nsp : nat; u_client : nat; u_recovered : bool; u_place : place; u_rooms : gset room }.
Record uclient := UClient { uc_id : string; uc_p3 : bool; uc_open : bool; uc_timer : bool }.
Record unsp := UNsp { un_name : string; un_parent : option nat; un_on : list nat; un_fns : list nat }.
Record userver := UServer {
  us_socks : list usock; us_clients : list uclient; us_nsps : list unsp; us_parents : list parent;
  us_names : gmap string nat;                                             (* the namespaces that can be found by name *)
  us_tasks : list (nat * packet)                                          (* packets that wait for their goroutine *)
}.
(** The server and the effects of the step so far. *)
Notation ustate := (userver * list eff)%type.

(** ** Reading *)
Definition here (a : usock) : bool := bool_decide (u_place a = Here).
Definition u_open (v : userver) (c : nat) : bool := match us_clients v !! c with Some cl => uc_open cl | None => false end.
Definition u_name (v : userver) (n : nat) : string := match us_nsps v !! n with Some np => un_name np | None => "" end.
(** The sockets with a property, and those here of a connection. *)
Definition those (P : usock → bool) (v : userver) : list nat := omap id (imap (λ k a, if P a then Some k else None) (us_socks v)).
Definition of_conn (c : nat) (a : usock) : bool := here a && bool_decide (u_client a = c).
(** Who is meant by rooms and exclusions: somebody here, in one of the rooms (if rooms are named), in none of the excluded ones. *)
Definition meant (n : nat) (opts : option bopts) (a : usock) : bool :=
  here a && bool_decide (u_nsp a = n) && bool_decide (opt_rooms opts = ∅ ∨ opt_rooms opts ∩ u_rooms a ≠ ∅) &&
  bool_decide (opt_except opts ∩ u_rooms a = ∅).

(** ** Changes *)
Definition on_u (f : userver → userver) (u : ustate) : ustate := (f u.1, u.2).
Definition say (e : eff) (u : ustate) : ustate := (u.1, u.2 ++ [e]).
Definition with_socks l v := UServer l (us_clients v) (us_nsps v) (us_parents v) (us_names v) (us_tasks v).
Definition with_clients l v := UServer (us_socks v) l (us_nsps v) (us_parents v) (us_names v) (us_tasks v).
Definition with_tasks l v := UServer (us_socks v) (us_clients v) (us_nsps v) (us_parents v) (us_names v) l.
Definition with_nsps l v := UServer (us_socks v) (us_clients v) l (us_parents v) (us_names v) (us_tasks v).
Definition with_parents l v := UServer (us_socks v) (us_clients v) (us_nsps v) l (us_names v) (us_tasks v).
Definition with_names m v := UServer (us_socks v) (us_clients v) (us_nsps v) (us_parents v) m (us_tasks v).
Definition to_client (c : nat) (f : uclient → uclient) (v : userver) : userver := with_clients (alter f c (us_clients v)) v.
Definition shut (cl : uclient) : uclient := UClient (uc_id cl) (uc_p3 cl) false (uc_timer cl).
Definition no_timer (cl : uclient) : uclient := UClient (uc_id cl) (uc_p3 cl) (uc_open cl) false.
Definition be (p : place) (rs : gset room) (a : usock) : usock := USock (u_id a) (u_nsp a) (u_client a) (u_recovered a) p rs.
Definition settle (f : gset room → gset room) (a : usock) : usock := be (u_place a) (f (u_rooms a)) a.
(** The rooms of the sockets [K]. *)
Definition rooms_at (K : list nat) (f : gset room → gset room) (v : userver) : userver :=
  with_socks (imap (λ k a, if decide (k ∈ K) then settle f a else a) (us_socks v)) v.

Section server.
  Context (csr skip clean : bool).

  (** The sockets [K] go.  A namespace made by a parent ends when somebody goes and nobody is left (if the option says so): its name is
      forgotten and it is no longer a child. *)
  Definition without (K : list nat) (v : userver) : list usock := imap (λ k a, if decide (k ∈ K) then be Gone ∅ a else a) (us_socks v).
  Definition ends (K : list nat) (v : userver) (n : nat) : bool :=
    clean && existsb (λ k, match us_socks v !! k with Some a => bool_decide (u_nsp a = n) | None => false end) K &&
    negb (existsb (λ a, here a && bool_decide (u_nsp a = n)) (without K v)).
  Definition ended_names (K : list nat) (v : userver) : list string :=
    omap id (imap (λ n np, if bool_decide (is_Some (un_parent np)) && ends K v n then Some (un_name np) else None) (us_nsps v)).
  Definition child_ends (K : list nat) (v : userver) (p n : nat) : Prop :=
    ends K v n = true ∧ ∃ np, us_nsps v !! n = Some np ∧ un_parent np = Some p.
  #[global] Instance child_ends_dec K v p n : Decision (child_ends K v p n).
  Proof.
    unfold child_ends. destruct (us_nsps v !! n) as [np|]; [destruct (decide (ends K v n = true ∧ un_parent np = Some p))|]; [left|right|right]; naive_solver.
  Defined.
  Definition depart (K : list nat) (v : userver) : userver :=
    UServer (without K v) (us_clients v) (us_nsps v)
      (imap (λ p q, pa_set_children (filter (λ n, ¬ child_ends K v p n) (pa_children q)) q) (us_parents v))
      (filter (λ e, e.1 ∉ ended_names K v) (us_names v)) (us_tasks v).
  Definition bye (r : string) (k : nat) : list eff :=
    EDisconnecting k r :: (if csr && bool_decide (r ∈ recoverable_reasons) then [EPersist k] else []) ++ [EDisconnect k r].
  Definition u_close (r : string) (K : list nat) (u : ustate) : ustate := (depart K u.1, u.2 ++ K ≫= bye r).

  (** Packets. *)
  Definition u_write (c : nat) (p : packet) (u : ustate) : ustate := if u_open u.1 c then say (EWrite c p) u else u.
  Definition u_packet (ty : ptype) (data : list value) (u : ustate) (k : nat) : ustate :=
    match us_socks u.1 !! k with Some a => u_write (u_client a) (Packet ty (u_name u.1 (u_nsp a)) data None) u | None => u end.

  (** Connections. *)
  Definition u_hangup (c : nat) (u : ustate) : ustate := on_u (to_client c shut) (say (EHangup c) u).
  Definition u_conn_closed (c : nat) (r : string) (u : ustate) : ustate := u_close r (those (of_conn c) u.1) (on_u (to_client c no_timer) u).
  Definition u_conn_close (u : ustate) (c : nat) : ustate :=
    if u_open u.1 c then u_conn_closed c "forced server close" (u_hangup c u) else u.
  (** Disconnect(false) of the sockets [K]; Disconnect(true) of the connections [cs]. *)
  Definition u_disconnect (K : list nat) (u : ustate) : ustate :=
    u_close "server namespace disconnect" K (foldl (u_packet DISCONNECT []) u K).
  Definition u_disconnect_conns (cs : list nat) (u : ustate) : ustate :=
    let u := u_disconnect (those (λ a, here a && bool_decide (u_client a ∈ cs)) u.1) u in
    let cs := filter (u_open u.1) cs in
    (with_clients (imap (λ c cl, if decide (c ∈ cs) then no_timer (shut cl) else cl) (us_clients u.1)) u.1, u.2 ++ (EHangup <$> cs)).

  (** A new socket, its admission or refusal. *)
  Definition u_connect (k : nat) (u : ustate) : ustate :=
    match us_socks u.1 !! k with
    | None => u
    | Some a =>
        let p3 := match us_clients u.1 !! u_client a with Some cl => uc_p3 cl | None => false end in
        let on := match us_nsps u.1 !! u_nsp a with Some np => un_on np | None => [] end in
        let v := with_socks (alter (λ a, be Here ({[u_id a]} ∪ u_rooms a) a) k (us_socks u.1)) (to_client (u_client a) no_timer u.1) in
        (v, u.2 ++ [EWrite (u_client a) (Packet CONNECT (u_name u.1 (u_nsp a)) (if p3 then [] else [VStr (u_id a)]) None); EConnect k on; EConnection k])
    end.
  Definition u_create (c n : nat) (x : arrival) (u : ustate) : ustate :=
    let k := length (us_socks u.1) in
    let add a := with_socks (us_socks u.1 ++ [a]) u.1 in
    match (if csr then x_prev x else None) with
    | Some (i, rs, missed) => foldl (λ u d, u_packet EVENT d u k) (add (USock i n c true Waiting (list_to_set rs)), u.2) missed
    | None =>
        let i := match us_clients u.1 !! c with
                 | Some cl => if uc_p3 cl then if decide (u_name u.1 n = "/") then uc_id cl else u_name u.1 n +:+ "#" +:+ uc_id cl else x_id x
                 | None => x_id x
                 end in
        (add (USock i n c false Waiting ∅), u.2)
    end.
  Definition u_add (c n : nat) (x : arrival) (u : ustate) : ustate :=
    let k := length (us_socks u.1) in
    let u' := u_create c n x u in
    if skip && (csr && bool_decide (is_Some (x_prev x))) && u_open u'.1 c then u_connect k u' else u'.
  Definition u_verdict (k : nat) (err : option value) (u : ustate) : ustate :=
    match us_socks u.1 !! k with
    | None => u
    | Some a => match u_open u.1 (u_client a), err with
                | true, Some e => u_packet CONNECT_ERROR [e] (on_u (depart [k]) u) k
                | true, None => u_connect k u
                | false, _ => on_u (depart [k]) u
                end
    end.

  (** Namespaces. *)
  Definition u_new (np : unsp) (v : userver) : userver :=
    with_names (<[un_name np := length (us_nsps v)]> (us_names v)) (with_nsps (us_nsps v ++ [np]) v).
  Definition u_child (p : nat) (name : string) (u : ustate) : ustate :=
    match us_parents u.1 !! p with
    | None => u
    | Some q =>
        let n := length (us_nsps u.1) in
        say (ENewNsp n) (on_u (λ v, u_new (UNsp name (Some p) (pa_on q) (pa_fns q))
          (with_parents (alter (λ q, pa_set_children ({[n]} ∪ pa_children q) q) p (us_parents v)) v)) u)
    end.
  Definition u_regex (v : userver) (name : string) (p : nat) : bool :=
    match us_parents v !! p with Some q => match pa_match q with MRegex m => m name | MFun => false end | None => false end.
  Definition u_of (os : sords) (raw : string) (fn : option nat) (u : ustate) : ustate :=
    let name := norm raw in
    let add_on f n v := with_nsps (alter (λ np, UNsp (un_name np) (un_parent np) (un_on np ++ [f]) (un_fns np)) n (us_nsps v)) v in
    let fns := match fn with Some f => [f] | None => [] end in
    match us_names u.1 !! name with
    | Some n => foldl (λ u f, on_u (add_on f n) u) u fns
    | None =>
        match head (filter (u_regex u.1 name) (so_parents os (seq 0 (length (us_parents u.1))))) with
        | Some p => u_child p name u
        | None => let n := length (us_nsps u.1) in
                  (λ u, if decide (name = "/") then u else say (ENewNsp n) u) (on_u (u_new (UNsp name None fns [])) u)
        end
    end.
  Definition u_do_connect (os : sords) (c : nat) (name : string) (x : arrival) (u : ustate) : ustate :=
    let u := u_of os name None u in
    match us_names u.1 !! norm name with Some n => u_add c n x u | None => u end.
  Definition u_accept (os : sords) (c p : nat) (name : string) (x : arrival) (u : ustate) : ustate :=
    u_do_connect os c name x (match us_names u.1 !! name with Some _ => u | None => u_child p name u end).
  (** The first parent that does not say no, if it says yes. *)
  Fixpoint u_ask (v : userver) (ans : nat → option bool) (name : string) (ps : list nat) : option nat :=
    match ps with
    | [] => None
    | p :: ps =>
        match (match us_parents v !! p with
               | Some q => match pa_match q with MRegex m => Some (m name) | MFun => ans p end
               | None => Some false
               end) with
        | Some true => Some p
        | Some false => u_ask v ans name ps
        | None => None
        end
    end.
  Definition u_enter (os : sords) (c : nat) (name : string) (ans : nat → option bool) (x : arrival) (u : ustate) : ustate :=
    match us_names u.1 !! name with
    | Some _ => u_do_connect os c name x u
    | None =>
        match u_ask u.1 ans name (so_parents os (seq 0 (length (us_parents u.1)))) with
        | Some p => u_accept os c p name x u
        | None => u_write c (Packet CONNECT_ERROR name [VMap [("message", VStr "Invalid namespace")]] None) u
        end
    end.

  (** A packet arrives on a connection; it is processed. *)
  Definition u_arrives (os : sords) (c : nat) (p : packet) (ans : nat → option bool) (x : arrival) (u : ustate) : ustate :=
    match those (λ a, of_conn c a && bool_decide (u_name u.1 (u_nsp a) = p_nsp p)) u.1 with
    | [] => if decide (p_type p = CONNECT) then u_enter os c (p_nsp p) ans x u else u_conn_close u c
    | k :: _ => if decide (p_type p = CONNECT ∨ p_type p = CONNECT_ERROR) then u_conn_close u c
                else on_u (λ v, with_tasks (us_tasks v ++ [(k, p)]) v) u
    end.
  Definition is_here (v : userver) (k : nat) : bool := match us_socks v !! k with Some a => here a | None => false end.
  Definition u_process (k : nat) (p : packet) (u : ustate) : ustate :=
    match p_type p with
    | EVENT | BINARY_EVENT => (λ u, if is_here u.1 k then say (EDispatch k p) u else u) (say (EAny k p) u)
    | ACK | BINARY_ACK => say (EAck k p) u
    | DISCONNECT => if is_here u.1 k then u_close "client namespace disconnect" [k] u else u
    | CONNECT | CONNECT_ERROR => u
    end.

  (** Emissions. *)
  Definition u_broadcast (n : nat) (data : list value) (opts : option bopts) (u : ustate) : ustate :=
    foldl (λ u k, match us_socks u.1 !! k with Some a => say (EWrite (u_client a) (Packet EVENT (u_name u.1 n) data None)) u | None => u end)
      u (those (meant n opts) u.1).
  Definition u_emit (k : nat) (data : list value) (off : string) (u : ustate) : ustate :=
    match us_socks u.1 !! k with
    | None => u
    | Some a =>
        let opts := Some (BOpts (Some {[u_id a]}) (Some ∅) (Some no_flags)) in
        if csr then u_broadcast (u_nsp a) (offset_data csr off data opts) opts u else u_packet EVENT data u k
    end.
  Definition u_parent_broadcast (os : sords) (p : nat) (data : list value) (off : nat → string) (opts : option bopts) (u : ustate) : ustate :=
    match us_parents u.1 !! p with
    | None => u
    | Some q => (foldl (λ acc n, let d := offset_data csr (off n) acc.2 opts in (u_broadcast n d opts acc.1, d))
                  (u, data) (so_children os (pa_children q))).1
    end.
  Definition u_parent_emit (os : sords) (p : nat) (data : list value) (off : nat → string) (u : ustate) : ustate :=
    let opts := Some (BOpts (Some ∅) (Some ∅) (Some no_flags)) in
    match us_parents u.1 !! p with
    | None => u
    | Some q => foldl (λ u n, u_broadcast n (offset_data csr (off n) data opts) opts u) u (so_children os (pa_children q))
    end.

  Definition u_step (e : sords * op) (v : userver) : ustate :=
    let os := e.1 in
    let u := (v, []) in
    match e.2 with
    | OOpen i p3 ans x =>
        let u := (with_clients (us_clients v ++ [UClient i p3 true true]) v, []) in
        if p3 then u_enter os (length (us_clients v)) "/" ans x u else u
    | OPacket c p ans x => if u_open v c then u_arrives os c p ans x u else u
    | OAnswer c p name x => u_accept os c p name x u
    | OVerdict k err => u_verdict k err u
    | OTask i => match us_tasks v !! i with
                 | Some (k, p) => u_process k p (with_tasks (delete i (us_tasks v)) v, [])
                 | None => u
                 end
    | OTimer c => match us_clients v !! c with
                  | Some cl => if uc_timer cl && bool_decide (those (of_conn c) v = []) then u_conn_close u c else u
                  | None => u
                  end
    | OTransport c r => u_conn_closed c r (on_u (to_client c shut) u)
    | OError c => u_hangup c (v, EErr <$> those (of_conn c) v)
    | OJoin k rs => match us_socks v !! k with
                    | Some a => if decide (u_place a = Gone) then u else on_u (rooms_at [k] (λ X, X ∪ list_to_set rs)) u
                    | None => u
                    end
    (* Rooms are kept by id: if [k] is gone and a recovered socket has its id, that one leaves. *)
    | OLeave k r => match us_socks v !! k with
                    | Some a => on_u (rooms_at (those (λ b, bool_decide (u_id b = u_id a ∧ u_nsp b = u_nsp a)) v) (λ X, X ∖ {[r]})) u
                    | None => u
                    end
    | ODisconnect k st => match us_socks v !! k with
                          | Some a => if here a then if st then u_disconnect_conns [u_client a] u else u_disconnect [k] u else u
                          | None => u
                          end
    | OEmit k data off => u_emit k data off u
    | OOf raw fn => u_of os raw fn u
    | OOfParent m fn => on_u (λ v, with_parents (us_parents v ++ [Parent m ∅ (match fn with Some f => [f] | None => [] end) []]) v) u
    | OOnParent p f => on_u (λ v, with_parents (alter (pa_add_on f) p (us_parents v)) v) u
    | OUseParent p f => on_u (λ v, with_parents (alter (pa_add_fn f) p (us_parents v)) v) u
    | OUse n f => on_u (λ v, with_nsps (alter (λ np, UNsp (un_name np) (un_parent np) (un_on np) (un_fns np ++ [f])) n (us_nsps v)) v) u
    | OBroadcast n data off opts => u_broadcast n (offset_data csr off data opts) opts u
    | OBulkJoin n rs opts => on_u (rooms_at (those (meant n opts) v) (λ X, X ∪ list_to_set rs)) u
    | OBulkLeave n rs opts => on_u (rooms_at (those (meant n opts) v) (λ X, X ∖ list_to_set rs)) u
    | OBulkDisconnect n st opts =>
        let K := those (meant n opts) v in
        if st then u_disconnect_conns (remove_dups (omap (λ k, u_client <$> us_socks v !! k) K)) u else u_disconnect K u
    | OParentBroadcast p data off opts => u_parent_broadcast os p data off opts u
    | OParentEmit p data off => u_parent_emit os p data off u
    | OShutdown => u_close "server shutting down" (those (λ a, here a && bool_decide (us_names v !! u_name v (u_nsp a) = Some (u_nsp a))) v) u
    end.
  Definition u_init : userver := UServer [] [] [UNsp "/" None [] []] [] {["/" := 0]} [].
  Definition u_run (h : list (sords * op)) : userver := foldl (λ v e, (u_step e v).1) u_init h.
End server.

(** What is visible of the real server. *)
Definition seen_sock (x : core) (a : sock) : usock :=
  USock (sk_id a) (sk_nsp a) (sk_client a) (sk_recovered a) (if sk_connected a then Here else if sk_can_join a then Waiting else Gone)
    (if sk_can_join a then rooms_of (reg_of x (sk_nsp a)) (sk_id a) else ∅).
Definition seen (x : core) : userver :=
  UServer (seen_sock x <$> c_socks x) ((λ cl, UClient (cl_id cl) (cl_p3 cl) (cl_open cl) (cl_timer cl)) <$> c_clients x)
    ((λ np, UNsp (np_name np) (np_parent np) (np_on np) (np_fns np)) <$> c_nsps x) (c_parents x) (c_reg x) (c_tasks x).
