(** Vocabulary for C71: what a closed connection leaves behind. *)
From Verif Require Import Base Rooms System.

(** At some point of the history the transport of client [c], known by then, closed. *)
Definition gone (csr skip clean : bool) (h : list (sords * op)) (c : nat) : Prop :=
  ∃ h1 os r h2, h = h1 ++ (os, OTransport c r) :: h2 ∧ c < length (c_clients (run csr skip clean h1).1).

(** Nothing is stored on client [c]: no socket, no namespace, no timer. *)
Definition blank_client (x : core) (c : nat) : Prop :=
  ∃ cl, c_clients x !! c = Some cl ∧ cl_open cl = false ∧ cl_sockets cl = ∅ ∧ cl_nsps cl = ∅ ∧ cl_timer cl = false.
(** Nothing is stored in namespace [n]: no socket, no room, no member. *)
Definition blank_nsp (x : core) (n : nat) : Prop :=
  ∃ np, c_nsps x !! n = Some np ∧ np_sockets np = ∅ ∧ rg_sids (np_reg np) = ∅ ∧ rg_rooms (np_reg np) = ∅.
(** Socket [k] is connected, or its middlewares are still running. *)
Definition alive (x : core) (k : nat) : Prop := ∃ a, c_socks x !! k = Some a ∧ (sk_connected a = true ∨ sk_can_join a = true).
