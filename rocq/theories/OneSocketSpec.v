(** Vocabulary for operations addressed to one socket of a cluster, through the room named by its id. *)
From Verif Require Import Base GoTypes Rooms Adapter AdapterSpec Cluster ClusterSpec.

(** The options by which one socket is addressed. *)
Definition to_one (id : sid) (f : flags) : bopts := BOpts (Some {[id]}) (Some ∅) (Some f).

(** A socket with that id is opened somewhere in the history. *)
Definition opened (h : list cop) (id : sid) : Prop := ∃ n, CLocal n (LOpen id) ∈ h.
(** The rooms named by the id of a socket are left alone: nobody joins the one of another socket, or leaves
    its own. *)
Definition spares (h : list cop) (op : cop) : Prop :=
  match op with
  | CCall _ (GJoin rs) _ _ _ _ _ _ | CCall _ (GLeave rs) _ _ _ _ _ _ => ∀ r, r ∈ rs → ¬ opened h r
  | CLocal _ (LJoin id rs) => ∀ r, r ∈ rs → opened h r → r = id
  | CLocal _ (LLeave id r) => r ≠ id
  | _ => True
  end.
(** No id is in use twice: a socket is opened when no server has one with that id. *)
Definition ids_distinct (csr : bool) (uids : gset string) (h : list cop) : Prop :=
  ∀ h1 n id h2, h = h1 ++ CLocal n (LOpen id) :: h2 → ∀ m nd, cl_nodes (crun csr uids h1) !! m = Some nd → ¬ listed nd id.
Definition disciplined (csr : bool) (uids : gset string) (h : list cop) : Prop :=
  Forall (spares h) h ∧ ids_distinct csr uids h.

(** Socket [id] is open on server [m]. *)
Definition open_on (s : cluster) (m : string) (id : sid) : Prop := ∃ nd, cl_nodes s !! m = Some nd ∧ listed nd id.
(** One entry if [P], none otherwise. *)
Definition one_if {A} (P : Prop) (x : A) (l : list A) : Prop := (P → l = [x]) ∧ (¬ P → l = []).

(** The operation on the socket [id] alone: nothing else changes on the server. *)
Definition acts_on_one (g : gop) (id : sid) (s s' : node) : Prop :=
  ns_written s' = ns_written s ∧
  (∀ i r, i ≠ id → (in_room s' i r ↔ in_room s i r)) ∧ (∀ i, i ≠ id → ns_sockets s' !! i = ns_sockets s !! i) ∧
  if decide (listed s id) then
    match g with
    | GJoin rs => (∀ r, in_room s' id r ↔ in_room s id r ∨ r ∈ rs) ∧ ns_sockets s' !! id = ns_sockets s !! id
    | GLeave rs => (∀ r, in_room s' id r ↔ in_room s id r ∧ r ∉ rs) ∧ ns_sockets s' !! id = ns_sockets s !! id
    | GDisconnect => (∀ r, ¬ in_room s' id r) ∧ ns_sockets s' !! id = None
    | GBroadcast _ _ _ => False
    end
  else ns_sockets s' !! id = None ∧ ∀ r, ¬ in_room s' id r.
