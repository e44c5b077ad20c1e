(** Calls of the interleaving model of the table of namespaces (NspConc.v) made in turn, and operations of the server (System.v): what
    corresponds to what (C72). *)
From Verif Require Import Base GoTypes Rooms Adapter System SystemSpec NspConc.

(** A goroutine rests: not begun, Of has returned or the middlewares of the client run, the client is connected, was denied, or is gone. *)
Definition resting (pc : npc) : bool := match pc with PStart | PGot _ | PIn _ | PDenied | PEnd => true | _ => false end.
Definition at_rest (n : nstate) : Prop := Forall (λ t, resting (nt_pc t) = true) (n_threads n).
(** A turn: one goroutine goes on until it rests, while all others rest. *)
Definition turn (cl : bool) (n n' : nstate) : Prop := at_rest n ∧ at_rest n' ∧ ∃ i m, n' = nrun cl n (replicate m i).

(** What both models keep of a namespace: name, parent, ids of the sockets connected to it. *)
Definition nsp_view (np : nspc) : string * option nat * gset string := (np_name np, np_parent np, dom (np_sockets np)).
Definition obj_view (o : nobj) : string * option nat * gset string := (no_name o, no_parent o, no_socks o).
Definition kids (x : core) (p : nat) : gset nat := default ∅ (pa_children <$> c_parents x !! p).
(** The new_namespace events. *)
Definition announced (l : list (core * eff)) : list nat := omap (λ e, match e.2 with ENewNsp n => Some n | _ => None end) l.
(** Where the client of socket [a] is; [b]: what its middlewares will decide, if they have not yet. *)
Definition stands (a : sock) (b : bool) (t : nthread) : Prop :=
  if sk_connected a then nt_client t = Some (sk_id a, true) ∧ nt_pc t = PIn (sk_nsp a)
  else if sk_can_join a then nt_client t = Some (sk_id a, b) ∧ nt_pc t = PGot (sk_nsp a)
  else fst <$> nt_client t = Some (sk_id a) ∧ nt_pc t = PEnd.
(** The names of the namespaces asked for by the calls of Of that have begun; "/" is asked for by the constructor of the server. *)
Definition asked (ts : list nthread) : list string :=
  omap (λ t, match nt_client t, nt_pc t with Some _, _ | None, PStart => None | None, _ => Some (nt_name t) end) ts.
Definition asks (h : list (sords * op)) : list string := "/" :: omap (λ e, match e.2 with OOf raw _ => Some (norm raw) | _ => None end) h.

(** A client that has a socket: it asked for a namespace and was not denied. *)
Definition engaged (t : nthread) : Prop := is_Some (nt_client t) ∧ nt_pc t ≠ PStart ∧ nt_pc t ≠ PDenied.

(** Both models are in the same state: same table, same namespaces, same children of the parents, same announcements; the calls of Of were
    for [names], and the goroutines of clients that have a socket are [g]: [g !! k] that of socket [k]. *)
Record agree (names : list string) (f : nat → bool) (s : sys) (n : nstate) : Prop := Agree {
  ag_table : n_table n = c_reg s.1;
  ag_objs : obj_view <$> n_objs n = nsp_view <$> c_nsps s.1;
  ag_kids : ∀ p, children n p = kids s.1 p;
  ag_events : n_events n = announced s.2;
  ag_asked : asked (n_threads n) ≡ₚ names;
  ag_socks : ∃ g : list nat, NoDup g ∧ length g = length (c_socks s.1) ∧
    (∀ i t, n_threads n !! i = Some t → (engaged t ↔ i ∈ g)) ∧
    (∀ k a i, c_socks s.1 !! k = Some a → g !! k = Some i →
       ∃ t, n_threads n !! i = Some t ∧ nt_name t = name_of s.1 (sk_nsp a) ∧ stands a (f k) t)
}.
(** The names sent by clients begin with a slash, as in NspConc.v. *)
Definition slashed (h : list (sords * op)) : Prop :=
  ∀ e, e ∈ h → match e.2 with OPacket _ p _ _ => norm (p_nsp p) = p_nsp p | OAnswer _ _ name _ => norm name = name | _ => True end.
(** The answers [nt_fn] and [nt_rx] of the parents to goroutine [t] are answers of parents given by [ms]: the first (in some order) that
    accepts, a function accepting or not as it likes. *)
Definition matching (ms : list matcher) (name : string) (p : nat) : Prop := ∃ m, ms !! p = Some (MRegex m) ∧ m name = true.
Definition plausible (ms : list matcher) (t : nthread) : Prop :=
  norm (nt_name t) = nt_name t ∧
  match nt_rx t with Some p => matching ms (nt_name t) p | None => ∀ p, ¬ matching ms (nt_name t) p end ∧
  match nt_fn t with Some p => matching ms (nt_name t) p ∨ ms !! p = Some MFun | None => ∀ p, ¬ matching ms (nt_name t) p end.
(** NewServer has made "/"; the goroutines [ts] have not begun. *)
Definition served (clean : bool) (ts : list nthread) : nstate := nrun clean (ninit (NThread "/" None None None PStart :: ts)) (replicate 4 0).
