(** Vocabulary for the statements about a cluster. *)
From Verif Require Import Base GoTypes Rooms Adapter AdapterSpec Cluster.

(** The iteration orders of a step are admissible; calls are made on servers of the cluster. *)
Definition cop_ok (uids : gset string) (op : cop) : Prop :=
  match op with
  | CCall n _ _ _ _ e1 e2 os => n ∈ uids ∧ order_ok e1 ∧ order_ok e2 ∧ orders_ok os
  | CDeliver _ os => orders_ok os
  | CLocal _ (LClose _ o) => order_ok o
  | CLocal _ _ => True
  end.

(** What server [m] wrote on behalf of the call number [tag]: sockets and data, in order. *)
Definition writes (s : cluster) (m : string) (tag : nat) : list (sid * list value) :=
  match cl_nodes s !! m with
  | Some nd => omap (λ w, if decide (w.2.1 = tag) then Some (w.1, w.2.2) else None) (ns_written nd)
  | None => []
  end.

(** Copies of the message of call [tag] in flight to server [m]. *)
Definition in_flight (s : cluster) (m : string) (tag : nat) : nat :=
  length (filter (λ x, x.1 = m ∧ cm_tag x.2 = tag) (cl_net s)).
(** The step delivers to [m] the message of call [tag]. *)
Definition delivers (s : cluster) (op : cop) (m : string) (tag : nat) : Prop :=
  match op with
  | CDeliver i _ => match cl_net s !! i with Some (d, x) => d = m ∧ cm_tag x = tag | None => False end
  | _ => False
  end.
#[global] Instance delivers_dec s op m tag : Decision (delivers s op m tag).
Proof. unfold delivers. destruct op; try apply _. destruct (cl_net s !! i) as [[]|]; apply _. Defined.
(** The number of such steps in [h], run after [before]. *)
Fixpoint deliveries (csr : bool) (uids : gset string) (before h : list cop) (m : string) (tag : nat) : nat :=
  match h with
  | [] => 0
  | op :: h => (if decide (delivers (crun csr uids before) op m tag) then 1 else 0) + deliveries csr uids (before ++ [op]) h m tag
  end.

(** Is the data given an offset: recovery is enabled, and the packet is an event, neither volatile nor
    to be acknowledged. *)
Definition volatile_opts (opts : option bopts) : Prop := ∃ o f, opts = Some o ∧ bo_flags o = Some f ∧ fl_volatile f = true.
Definition local_opts (opts : option bopts) : Prop := ∃ o f, opts = Some o ∧ bo_flags o = Some f ∧ fl_local f = true.
(** The same as a boolean: the broadcast is for the sockets of the calling server only. *)
Definition kept_local (opts : option bopts) : bool :=
  match opts with Some o => match bo_flags o with Some f => fl_local f | None => false end | None => false end.
Definition with_offset (csr : bool) (ty : ptype) (ack : bool) (data : list value) (opts : option bopts) (off : string) (d : list value) : Prop :=
  (csr = true ∧ ty = EVENT ∧ ack = false ∧ ¬ volatile_opts opts → d = data ++ [VStr off]) ∧
  (¬ (csr = true ∧ ty = EVENT ∧ ack = false ∧ ¬ volatile_opts opts) → d = data).

(** A bulk operation on one server, selecting by [opts]: what it does to the server. *)
Definition bulk_effect (g : gop) (opts : option bopts) (s s' : node) : Prop :=
  let hit := matches s (opt_rooms opts) (opt_except opts) in
  ns_written s' = ns_written s ∧
  match g with
  | GJoin rs => (∀ id r, in_room s' id r ↔ in_room s id r ∨ (hit id ∧ r ∈ rs)) ∧ ns_sockets s' = ns_sockets s
  | GLeave rs => (∀ id r, in_room s' id r ↔ in_room s id r ∧ ¬ (hit id ∧ r ∈ rs)) ∧ ns_sockets s' = ns_sockets s
  | GDisconnect => (∀ id r, in_room s' id r ↔ in_room s id r ∧ ¬ hit id) ∧
      (∀ id, (hit id → ns_sockets s' !! id = None) ∧ (¬ hit id → ns_sockets s' !! id = ns_sockets s !! id))
  | GBroadcast _ _ _ => False
  end.
