(** Common imports and the few notions every model file shares. *)
From stdpp Require Export prelude gmap sets fin_maps fin_sets strings list.
From Coq Require Export Lia.
Global Open Scope string_scope.
Global Open Scope list_scope.

(** A socket id ([SocketId], socket/adapter-type.go:14) and a room name
    ([Room], socket/adapter-type.go:22) are both Go strings, and the code
    converts between them ([Room(s.id)], socket/socket.go:514), so both are
    modelled by the same type. *)
Notation sid := string (only parsing).
Notation room := string (only parsing).

(** Iteration order of a Go set or map.  [types.Set.Keys()] and
    [types.Map.Range] enumerate a Go map, whose order is unspecified; every
    function of the model that iterates takes the order as a parameter.  An
    order is admissible when it enumerates every element exactly once. *)
Definition order := gset string → list string.
Definition order_ok (o : order) : Prop := ∀ X, o X ≡ₚ elements X.

(** The order std++ happens to use, and its reverse: two concrete orders for examples. *)
Definition ord_std : order := λ X, elements X.
Definition ord_rev : order := λ X, reverse (elements X).
Lemma ord_std_ok : order_ok ord_std.
Proof. intros X. reflexivity. Qed.
Lemma ord_rev_ok : order_ok ord_rev.
Proof. intros X. unfold ord_rev. by rewrite reverse_Permutation. Qed.

Lemma order_elem o X x : order_ok o → x ∈ o X ↔ x ∈ X.
Proof. intros Ho. rewrite (Ho X). apply elem_of_elements. Qed.
Lemma order_NoDup o X : order_ok o → NoDup (o X).
Proof. intros Ho. rewrite (Ho X). apply NoDup_elements. Qed.

(** Deciding a closed proposition by evaluation. *)
Ltac by_eval := refine (bool_decide_unpack _ _); vm_compute; exact I.
