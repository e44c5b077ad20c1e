(** Vocabulary for requests between the servers of a cluster. *)
From Verif Require Import Base GoTypes Rooms RoomsSpec Adapter AdapterSpec Cluster ClusterReq ClusterReqSpec ClusterFetch.

(** The iteration orders of a step are admissible; calls are made on servers of the cluster. *)
Definition fop_ok (uids : gset string) (op : fop) : Prop :=
  match op with
  | FFetch n _ _ _ _ _ e1 e2 os => n ∈ uids ∧ order_ok e1 ∧ order_ok e2 ∧ orders_ok os
  | FEmit n _ _ _ _ _ _ => n ∈ uids
  | FDeliver _ _ o os => order_ok o ∧ orders_ok os
  | FMessage _ _ o _ _ => order_ok o
  | FCheck _ _ on o => order_ok on ∧ order_ok o
  | FLocal _ (LClose _ o) => order_ok o
  | _ => True
  end.
(** The request ids and the callbacks of one server are distinct. *)
Definition asks (op : fop) : option (string * nat * string) :=
  match op with FFetch n cb rid _ _ _ _ _ _ => Some (n, cb, rid) | FEmit n (Some cb) rid _ _ _ _ => Some (n, cb, rid) | _ => None end.
Definition asks_ok (h : list fop) : Prop := ∀ i j x y n cb rid cb' rid', h !! i = Some x → h !! j = Some y → i ≠ j →
  asks x = Some (n, cb, rid) → asks y = Some (n, cb', rid') → cb ≠ cb' ∧ rid ≠ rid'.

(** What callback [cb] of server [n] was called with. *)
Definition outcome (s : fcluster) (n : string) (cb : nat) : list ccall :=
  match fc_nodes s !! n with Some nd => calls_of (fn_hb nd) cb | None => [] end.
(** [u] is known to server [n] as a member of the cluster. *)
Definition knows (s : fcluster) (n u : string) : Prop := ∃ nd, fc_nodes s !! n = Some nd ∧ is_Some (hb_nodes (fn_hb nd) !! u).

(** How a socket appears in a result: a socket of the server itself, and a copy of the id and the rooms of a
    socket of another server. *)
Definition own_socket (id : sid) (v : value) : Prop := v = VStr id.
Definition other_socket {P} (ns : nspace P) (id : sid) (v : value) : Prop :=
  ∃ rs, v = VArr [VStr id; VStrs rs] ∧ NoDup rs ∧ ∀ r, r ∈ rs ↔ in_room ns id r.
(** The values describe exactly the sockets of [ns] that match the options, each once. *)
Definition describes {P} (f : sid → value → Prop) (ns : nspace P) (opts : option bopts) (l : list value) : Prop :=
  ∃ ids, Forall2 f ids l ∧ NoDup ids ∧ ∀ id, id ∈ ids ↔ matches ns (opt_rooms opts) (opt_except opts) id.

(** On the way: requests (n, rid) to server [m], responses of [m] to it; a callback not called yet. *)
Definition requests_way (s : fcluster) (n rid m : string) : nat :=
  length (omap (λ x, match x.2 with
    | QFetch u r _ => if decide (x.1 = m ∧ u = n ∧ r = rid) then Some () else None
    | QEmit u (Some r) _ _ => if decide (x.1 = m ∧ u = n ∧ r = rid) then Some () else None
    | _ => None end) (fc_net s)).
Definition responses_way (s : fcluster) (n rid m : string) : nat :=
  length (omap (λ x, match x.2 with QResponse u r => if decide (x.1 = n ∧ u = m ∧ resp_rid r = rid) then Some () else None | _ => None end) (fc_net s)).
Definition callback_held (s : fcluster) (n rid m : string) : Prop := ∃ nd, fc_nodes s !! m = Some nd ∧ fn_acks nd !! (n, rid) = Some false.
(** ServerSideEmit number [k]: copies on the way to server [m], and what its listeners were called with. *)
Definition events_way (s : fcluster) (m : string) (k : nat) : nat :=
  length (omap (λ x, match x.2 with QEmit u _ _ t => if decide (x.1 = m ∧ u ≠ m ∧ t = k) then Some () else None | _ => None end) (fc_net s)).
Definition heard (s : fcluster) (m : string) (k : nat) : list (string * list value) :=
  match fc_nodes s !! m with Some nd => omap (λ x, if decide (x.1 = k) then Some x.2 else None) (fn_heard nd) | None => [] end.

(** The parts of a result, by server.  [h !! k] is the call, on server [n]. *)
Section parts.
  Context (timeout : Z) (uids : gset string) (h : list fop) (k : nat) (n : string).
  (** Exactly the matching sockets of another server, as they were at some moment after the call. *)
  Definition fetched (opts : option bopts) (p : string * list value) : Prop :=
    p.1 ∈ uids ∧ p.1 ≠ n ∧ ∃ j nd, k < j ∧ j < length h ∧ fc_nodes (frun timeout uids (take j h)) !! p.1 = Some nd ∧ describes (other_socket (fn_ns nd)) (fn_ns nd) opts p.2.
  (** The first answer a listener of another server gave after it was called. *)
  Definition answered (rid ev : string) (args : list value) (p : string * list value) : Prop :=
    p.1 ∈ uids ∧ p.1 ≠ n ∧ ∃ j, k < j ∧ h !! j = Some (FAnswer p.1 n rid p.2) ∧ heard (frun timeout uids (take j h)) p.1 k = [(ev, args)] ∧
      ∀ i a, i < j → h !! i = Some (FAnswer p.1 n rid a) → heard (frun timeout uids (take i h)) p.1 k = [].
  (** Every server known at the time of the call is in the list, or was not known any more at some later moment. *)
  Definition lost (u : string) : Prop := ∃ j, k < j ∧ j ≤ length h ∧ ¬ knows (frun timeout uids (take j h)) n u.
  Definition covers (us : list string) : Prop := ∀ u, knows (frun timeout uids (take k h)) n u → u ∈ us ∨ lost u.
  (** The answer of server [u] is still outstanding at step [j]. *)
  Definition outstanding (j : nat) (rid u : string) : Prop :=
    knows (frun timeout uids (take k h)) n u ∧ knows (frun timeout uids (take j h)) n u ∧
    (u ∈ uids → 0 < requests_way (frun timeout uids (take j h)) n rid u + responses_way (frun timeout uids (take j h)) n rid u ∨ callback_held (frun timeout uids (take j h)) n rid u).
End parts.
