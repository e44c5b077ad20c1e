(** Vocabulary for the statements about the whole server. *)
From Verif Require Import Base GoTypes Rooms Adapter AdapterSpec Session System.

(** Admissible iteration orders. *)
Definition sords_ok (os : sords) : Prop :=
  orders_ok (so_apply os) ∧ (∀ c, order_ok (so_client os c)) ∧ order_ok (so_nsps os) ∧
  (∀ m, order_ok (so_nsock os m)) ∧ (∀ l, so_parents os l ≡ₚ l) ∧ (∀ X, so_children os X ≡ₚ elements X).

(** Socket [k] exists, and neither was it connected nor cleaned up: its middlewares are running. *)
Definition pending (x : core) (k : nat) : Prop :=
  ∃ a, c_socks x !! k = Some a ∧ sk_connected a = false ∧ sk_can_join a = true.

(** What the environment guarantees for each step: iteration orders enumerate the sets, the middlewares of
    a socket finish at most once (see C17 for what happens otherwise), a client exists before it is used and
    only the function given to a parent namespace answers late. *)
Definition op_env (s : sys) (e : sords * op) : Prop :=
  sords_ok e.1 ∧
  match e.2 with
  | OVerdict k _ => pending s.1 k
  | OAnswer c p _ _ => c < length (c_clients s.1) ∧ ∃ q, c_parents s.1 !! p = Some q ∧ pa_match q = MFun
  | _ => True
  end.
Definition env_ok (csr skip clean : bool) (h : list (sords * op)) : Prop :=
  ∀ h1 e h2, h = h1 ++ e :: h2 → op_env (run csr skip clean h1) e.

(** ** Sockets *)
Definition connected (x : core) (k : nat) : Prop := ∃ a, c_socks x !! k = Some a ∧ sk_connected a = true.
(** Refused, aborted or disconnected: it is not connected and cannot join a room. *)
Definition closed (x : core) (k : nat) : Prop := ∃ a, c_socks x !! k = Some a ∧ sk_connected a = false ∧ sk_can_join a = false.
(** Socket [k] is in a table of a namespace, of a client. *)
Definition listed (x : core) (k : nat) : Prop := ∃ n i, socks_of x n !! i = Some k.
Definition on_client (x : core) (k : nat) : Prop := ∃ c, (∃ i, csocks_of x c !! i = Some k) ∨ (∃ m, cnsps_of x c !! m = Some k).
(** The rooms of the id of socket [k] in its namespace. *)
Definition rooms_sock (x : core) (k : nat) : gset room :=
  match c_socks x !! k with Some a => rooms_of (reg_of x (sk_nsp a)) (sk_id a) | None => ∅ end.
(** The id of socket [k] is not used by another open socket of its namespace. *)
Definition sole (x : core) (k : nat) : Prop :=
  ∀ j a b, c_socks x !! k = Some a → c_socks x !! j = Some b → sk_can_join b = true →
    sk_id b = sk_id a → sk_nsp b = sk_nsp a → j = k.
(** Socket ids are not shared between namespaces of different names. *)
Definition ids_ok (x : core) : Prop :=
  ∀ j k a b, c_socks x !! j = Some a → c_socks x !! k = Some b → sk_id a = sk_id b → name_of x (sk_nsp a) = name_of x (sk_nsp b).

(** ** Lifecycle of socket [k] in a log *)
Inductive life := LConnect | LConnection | LEvent (p : packet) | LDisconnecting (r : string) | LDisconnect (r : string).
Definition life_of (k : nat) (e : core * eff) : option life :=
  match e.2 with
  | EConnect j _ => if decide (j = k) then Some LConnect else None
  | EConnection j => if decide (j = k) then Some LConnection else None
  | EDispatch j p => if decide (j = k) then Some (LEvent p) else None
  | EDisconnecting j r => if decide (j = k) then Some (LDisconnecting r) else None
  | EDisconnect j r => if decide (j = k) then Some (LDisconnect r) else None
  | _ => None
  end.
Definition lives (k : nat) (l : list (core * eff)) : list life := omap (life_of k) l.

(** Socket [k], described by [a], is marked connected, listed in its namespace and in the room named by its
    id; it is in the tables of its client. *)
Definition welcomed (x : core) (k : nat) (a : sock) : Prop :=
  c_socks x !! k = Some a ∧ sk_connected a = true ∧ socks_of x (sk_nsp a) !! sk_id a = Some k ∧ sk_id a ∈ rooms_sock x k.
Definition tabled (x : core) (k : nat) (a : sock) : Prop :=
  csocks_of x (sk_client a) !! sk_id a = Some k ∧ cnsps_of x (sk_client a) !! name_of x (sk_nsp a) = Some k.

(** A connected socket of client [c] in a namespace named [m]. *)
Definition joined (x : core) (c : nat) (m : string) (k : nat) : Prop :=
  ∃ a, c_socks x !! k = Some a ∧ sk_connected a = true ∧ sk_client a = c ∧ name_of x (sk_nsp a) = m.

(** Socket [k] is meant by an operation on namespace [n] with these rooms and exclusions. *)
Definition target (x : core) (n : nat) (opts : option bopts) (k : nat) : Prop :=
  ∃ a, c_socks x !! k = Some a ∧ sk_connected a = true ∧ sk_nsp a = n ∧
    (opt_rooms opts = ∅ ∨ ∃ r, r ∈ opt_rooms opts ∧ r ∈ rooms_sock x k) ∧ ¬ ∃ r, r ∈ opt_except opts ∧ r ∈ rooms_sock x k.

(** ** Well-behaved environments
    The socket created by a step has an id that no open socket has (GenerateId, RestoreSession), ids are
    not shared between namespaces, and the client has no other attempt pending in that namespace (nor, if
    a parent's function answers late, a connected socket in it).  Packets name namespaces with a leading
    slash. *)
Definition polite_op (csr skip clean : bool) (s : sys) (e : sords * op) : Prop :=
  let s' := step csr skip clean e s in
  (∀ a, c_socks s'.1 !! length (c_socks s.1) = Some a → ∀ j b, c_socks s.1 !! j = Some b →
     (sk_id b = sk_id a → sk_can_join b = false ∧ name_of s'.1 (sk_nsp b) = name_of s'.1 (sk_nsp a)) ∧
     (sk_can_join b = true → sk_client b = sk_client a → name_of s'.1 (sk_nsp b) = name_of s'.1 (sk_nsp a) →
        sk_connected b = true ∧ match e.2 with OOpen _ _ _ _ | OPacket _ _ _ _ => True | _ => False end)) ∧
  match e.2 with OPacket c p ans x => norm (p_nsp p) = p_nsp p | _ => True end.
Definition polite (csr skip clean : bool) (h : list (sords * op)) : Prop :=
  ∀ h1 e h2, h = h1 ++ e :: h2 → polite_op csr skip clean (run csr skip clean h1) e.

(** Every connected socket of client [c] is closed between [s] and [s'], for that reason; everybody else is
    left alone. *)
Definition swept (s s' : sys) (c : nat) (r : string) : Prop :=
  ∀ k a, c_socks s.1 !! k = Some a →
    if bool_decide (sk_client a = c) && sk_connected a
    then closed s'.1 k ∧ lives k s'.2 = lives k s.2 ++ [LDisconnecting r; LDisconnect r]
    else c_socks s'.1 !! k = Some a ∧ lives k s'.2 = lives k s.2 ∧ (sk_can_join a = true → rooms_sock s'.1 k = rooms_sock s.1 k) ∧
         (sk_connected a = true → socks_of s'.1 (sk_nsp a) !! sk_id a = Some k).

(** The connection of [c] sent packet [p] while its socket [k] was connected in the namespace of [p]. *)
Definition sent (csr skip clean : bool) (h : list (sords * op)) (k : nat) (p : packet) : Prop :=
  ∃ h1 os c ans x h2, h = h1 ++ (os, OPacket c p ans x) :: h2 ∧ is_open (run csr skip clean h1).1 c = true ∧
    joined (run csr skip clean h1).1 c (p_nsp p) k.
(** Socket [k] processes packet [p]. *)
Definition processes (e : eff) (k : nat) (p : packet) : Prop :=
  match e with EAny j q | EDispatch j q | EAck j q => j = k ∧ q = p | _ => False end.
(** A packet that violates the protocol: the namespace is joined and it asks to join it again (or is an error
    message), or the namespace is not joined and it is not a request to join. *)
Definition violation (x : core) (c : nat) (p : packet) : Prop :=
  (∃ k, joined x c (p_nsp p) k) ∧ (p_type p = CONNECT ∨ p_type p = CONNECT_ERROR) ∨
  (¬ ∃ k, joined x c (p_nsp p) k) ∧ p_type p ≠ CONNECT.

(** ** Namespaces
    What a log entry is about: a packet of the namespace named [m] for the connection of one of the sockets
    [K], or the lifecycle of one of them. *)
Definition about (x : core) (m : string) (K : nat → Prop) (e : eff) : Prop :=
  match e with
  | EWrite c p => p_nsp p = m ∧ ∃ k a, K k ∧ c_socks x !! k = Some a ∧ sk_client a = c
  | EDisconnecting k _ | EPersist k | EDisconnect k _ => K k
  | _ => False
  end.
(** Between [s] and [s'] only the sockets [K] of namespace [n] are concerned. *)
Record isolated (s s' : sys) (n : nat) (K : nat → Prop) : Prop := {
  iso_nsps : ∀ m, m ≠ n → c_nsps s'.1 !! m = c_nsps s.1 !! m;
  iso_socks : ∀ k, ¬ K k → c_socks s'.1 !! k = c_socks s.1 !! k;
  iso_mine : ∀ k a, K k → c_socks s.1 !! k = Some a → sk_nsp a = n;
  iso_log : ∃ l, s'.2 = s.2 ++ l ∧ ∀ x e, (x, e) ∈ l → about s.1 (name_of s.1 n) K e
}.
(** The operations on one namespace: the namespace and the sockets they are meant for.  (Disconnect(true)
    closes the whole connection, see C23.) *)
Inductive scoped (x : core) : op → nat → (nat → Prop) → Prop :=
  | sc_broadcast n data off opts : scoped x (OBroadcast n data off opts) n (target x n opts)
  | sc_bulk_join n rs opts : scoped x (OBulkJoin n rs opts) n (target x n opts)
  | sc_bulk_leave n rs opts : scoped x (OBulkLeave n rs opts) n (target x n opts)
  | sc_bulk_disconnect n opts : scoped x (OBulkDisconnect n false opts) n (target x n opts)
  | sc_emit k a data off : c_socks x !! k = Some a →
      scoped x (OEmit k data off) (sk_nsp a) (λ j, j = k ∨ target x (sk_nsp a) (Some (BOpts (Some {[sk_id a]}) None None)) j)
  | sc_join k a rs : c_socks x !! k = Some a → scoped x (OJoin k rs) (sk_nsp a) (λ j, j = k)
  | sc_leave k a r : c_socks x !! k = Some a → scoped x (OLeave k r) (sk_nsp a) (λ j, j = k)
  | sc_disconnect k a : c_socks x !! k = Some a → scoped x (ODisconnect k false) (sk_nsp a) (λ j, j = k).

(** The packet [p] is written once to the connection of each of the sockets [ks], in this order, and nothing
    else happens. *)
Definition delivered (s s' : sys) (ks : list nat) (p : packet) : Prop :=
  s'.1 = s.1 ∧ s'.2 = s.2 ++ omap (λ k, (λ a, (s.1, EWrite (sk_client a) p)) <$> c_socks s.1 !! k) ks.

(** The data of an event as written: followed by its offset if the connection state recovery is on and the
    broadcast is not volatile. *)
Definition volatile_opts (opts : option bopts) : Prop := ∃ o f, opts = Some o ∧ bo_flags o = Some f ∧ fl_volatile f = true.
Definition stamped (csr : bool) (data : list value) (opts : option bopts) (off : string) (d : list value) : Prop :=
  (csr = true ∧ ¬ volatile_opts opts → d = data ++ [VStr off]) ∧ (csr = false ∨ volatile_opts opts → d = data).

(** Names of namespaces start with a slash; [canon raw m]: [m] is the name meant by [raw]. *)
Definition slashed (m : string) : Prop := ∃ t, m = "/" +:+ t.
Definition canon (raw m : string) : Prop := slashed m ∧ (m = raw ∨ ¬ slashed raw ∧ m = "/" +:+ raw).
(** Namespace [n] is registered under [m]. *)
Definition registered (x : core) (m : string) (n : nat) : Prop := c_reg x !! m = Some n.
(** Parent [q] accepts the name at once; [ans]: what the functions of the parents answer at once. *)
Definition accepts (x : core) (ans : nat → option bool) (m : string) (q : nat) : Prop :=
  ∃ pa, c_parents x !! q = Some pa ∧ match pa_match pa with MRegex f => f m = true | MFun => ans q = Some true end.
(** The application creates the namespace, or a parent accepts the name, at once or later. *)
Inductive declares (x : core) : op → string → Prop :=
  | de_of raw fn m : canon raw m → declares x (OOf raw fn) m
  | de_sync c p ans ar q : p_type p = CONNECT → accepts x ans (p_nsp p) q → declares x (OPacket c p ans ar) (p_nsp p)
  | de_late c q m ar pa : c_parents x !! q = Some pa → pa_match pa = MFun → declares x (OAnswer c q m ar) m.
Definition declared (csr skip clean : bool) (h : list (sords * op)) (m : string) : Prop :=
  m = "/" ∨ ∃ h1 e h2, h = h1 ++ e :: h2 ∧ declares (run csr skip clean h1).1 e.2 m.
(** The names clients ask for start with a slash. *)
Definition asks_slashed (h : list (sords * op)) : Prop :=
  ∀ e, e ∈ h → match e.2 with OPacket _ p _ _ => slashed (p_nsp p) | OAnswer _ _ m _ => slashed m | _ => True end.
(** The namespaces announced by new_namespace events. *)
Definition announced (l : list (core * eff)) : list nat := omap (λ e, match e.2 with ENewNsp n => Some n | _ => None end) l.
(** No connection attempt outlives its namespace: the namespaces of pending sockets are registered. *)
Definition attended (csr skip clean : bool) (h : list (sords * op)) : Prop :=
  ∀ h1 h2, h = h1 ++ h2 → ∀ k a, pending (run csr skip clean h1).1 k → c_socks (run csr skip clean h1).1 !! k = Some a →
    registered (run csr skip clean h1).1 (name_of (run csr skip clean h1).1 (sk_nsp a)) (sk_nsp a).
(** For each (n, ks) of the list, in this order, the packet [p n] is written once to the connection of each of
    the sockets [ks]; nothing else happens. *)
Definition relayed (s s' : sys) (L : list (nat * list nat)) (p : nat → packet) : Prop :=
  s'.1 = s.1 ∧ s'.2 = s.2 ++ L ≫= (λ e, omap (λ k, (λ a, (s.1, EWrite (sk_client a) (p e.1))) <$> c_socks s.1 !! k) e.2).
(** [L] covers the children of parent [p]: each entry is a child with the sockets of it that [opts] selects,
    and no registered child is missing or repeated. *)
Record reaches (x : core) (p : nat) (opts : option bopts) (L : list (nat * list nat)) : Prop := {
  rc_once : NoDup L.*1;
  rc_child : ∀ n, n ∈ L.*1 → ∃ np, c_nsps x !! n = Some np ∧ np_parent np = Some p;
  rc_all : ∀ n np, c_nsps x !! n = Some np → np_parent np = Some p → registered x (np_name np) n → n ∈ L.*1;
  rc_targets : ∀ n ks, (n, ks) ∈ L → NoDup ks ∧ ∀ k, k ∈ ks ↔ target x n opts k
}.

(** ** Connections
    A socket of client [c] was announced (connection event) in the log [l]. *)
Definition came (l : list (core * eff)) (c : nat) : Prop :=
  ∃ x k a, (x, EConnection k) ∈ l ∧ c_socks x !! k = Some a ∧ sk_client a = c.
(** Socket [k] is a connected socket of client [c]. *)
Definition of_client (x : core) (c k : nat) : Prop := ∃ a, c_socks x !! k = Some a ∧ sk_connected a = true ∧ sk_client a = c.
