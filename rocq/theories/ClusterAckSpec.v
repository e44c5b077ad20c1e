(** Vocabulary for broadcasts with acknowledgement in a cluster. *)
From Verif Require Import Base GoTypes Rooms Adapter AdapterSpec Cluster ClusterSpec BcastAck BcastAckSpec ClusterAck.

(** The iteration orders of a step are admissible; calls are made on servers of the cluster. *)
Definition aop_ok (uids : gset string) (op : aop) : Prop :=
  match op with
  | ACall n _ _ _ _ e1 e2 os => n ∈ uids ∧ order_ok e1 ∧ order_ok e2 ∧ orders_ok os
  | ADeliver _ os => orders_ok os
  | ALocal _ (LClose _ o) => order_ok o
  | _ => True
  end.
(** The request ids that one server generates are distinct. *)
Definition rids_ok (h : list aop) : Prop := ∀ i j n rid o1 p1 c1 a1 b1 r1 o2 p2 c2 a2 b2 r2,
  h !! i = Some (ACall n rid o1 p1 c1 a1 b1 r1) → h !! j = Some (ACall n rid o2 p2 c2 a2 b2 r2) → i = j.

(** The events of the Emit number [k], in order: what its callback sees depends on them ([BcastAck.v]). *)
Definition events (s : acluster) (k : nat) : list bevent :=
  omap (λ x, if decide (en_call x = k) then Some (en_ev x) else None) (ac_log s).
(** The sockets of server [m] that were sent the packet of call [k], with the id of the packet. *)
Definition sent (s : acluster) (m : string) (k : nat) : list (sid * nat) :=
  match ac_nodes s !! m with
  | Some nd => omap (λ w, if decide (w.2.1 = k) then Some (w.1, w.2.2) else None) (ns_written (an_ns nd))
  | None => []
  end.
(** ... and have not answered. *)
Definition waiting (s : acluster) (m : string) (k : nat) : list (sid * nat) :=
  match ac_nodes s !! m with Some nd => filter (λ p, is_Some (an_acks nd !! p)) (sent s m k) | None => [] end.

(** What server [m] told the callback of call [k]: numbers of clients, and answers of socket [id]. *)
Definition counts_from (s : acluster) (k : nat) (m : string) : list nat :=
  omap (λ x, if decide (en_call x = k ∧ en_from x = m) then match en_ev x with EbCount c => Some c | _ => None end else None) (ac_log s).
Definition answers_from (s : acluster) (k : nat) (m : string) (id : sid) : list (list value) :=
  omap (λ x, if decide (en_call x = k ∧ en_from x = m ∧ en_who x = Some id) then match en_ev x with EbReply a => Some a | _ => None end else None) (ac_log s).
(** On the way: the request to server [m], its number of clients, the answer of its socket [id]. *)
Definition requests_to (s : acluster) (k : nat) (m : string) : nat :=
  length (omap (λ x, match x.2 with AReq u _ _ t => if decide (x.1 = m ∧ u ≠ m ∧ t = k) then Some () else None | _ => None end) (ac_net s)).
Definition counts_way (s : acluster) (k : nat) (m : string) : nat :=
  length (omap (λ x, match x.2 with ACnt u _ _ t => if decide (u = m ∧ t = k) then Some () else None | _ => None end) (ac_net s)).
Definition answers_way (s : acluster) (k : nat) (m : string) (id : sid) : nat :=
  length (omap (λ x, match x.2 with AAns u _ _ t w => if decide (u = m ∧ t = k ∧ w = id) then Some () else None | _ => None end) (ac_net s)).
