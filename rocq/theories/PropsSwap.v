(** Property C68: changing the adapter of a server that has sockets. *)
From Verif Require Import Base GoTypes Rooms Adapter AdapterSpec AdapterRun AdapterRunSpec Swap SwapSpec SwapProofs.

(** ** C68 Changing the adapter
    [part e h] is the history of a namespace that never changes its adapter: the sockets opened while adapter [e] was the current one,
    what they did, and the broadcasts and bulk operations that went through [e].  The rooms of adapter [e] are those of that namespace,
    and a socket opened in its time is listed and receives exactly as it would there: adapters do not interfere. *)
Theorem C68_split : ∀ (P : Type) (rep : bool) (h : list (wop P)) (e : nat), Forall wop_ok h → NoDup (opened h) →
  sw_reg e (w_run rep h) = ns_reg (ns_run rep (part e h)) ∧
  ∀ id h1 h2, h = h1 ++ WOpen id :: h2 → changes h1 = e →
    sw_socks (w_run rep h) !! id = ns_sockets (ns_run rep (part e h)) !! id ∧ sent_to id (w_run rep h) = packets_of id (ns_run rep (part e h)).
Proof. exact @c68_split_l. Qed.
Print Assumptions C68_split.
(** Said of the history alone: whether the socket is listed, its rooms, the packets it received. *)
Theorem C68_received : ∀ (P : Type) (rep : bool) (h h1 h2 : list (wop P)) (id : sid), Forall wop_ok h → NoDup (opened h) → h = h1 ++ WOpen id :: h2 →
  (is_Some (sw_socks (w_run rep h) !! id) ↔ v_listed (view_of (part (changes h1) h)) id) ∧
  (∀ r, id ∈ members_of (sw_reg (changes h1) (w_run rep h)) r ↔ v_in (view_of (part (changes h1) h)) id r) ∧
  ∀ l, received (part (changes h1) h) id l ↔ sent_to id (w_run rep h) = l.
Proof. exact @c68_received_l. Qed.
Print Assumptions C68_received.
(** A socket is for ever with the adapter that was the current one when it was opened. *)
Theorem C68_home : ∀ (P : Type) (rep : bool) (h : list (wop P)), Forall wop_ok h → NoDup (opened h) → sw_now (w_run rep h) = changes h ∧
  ∀ id e, sw_home (w_run rep h) !! id = Some e ↔ ∃ h1 h2, h = h1 ++ WOpen id :: h2 ∧ changes h1 = e.
Proof. exact @home_run. Qed.
Print Assumptions C68_home.
(** So no emission of the namespace reaches a socket that was there before the last change, whatever its options. *)
Theorem C68_missed : ∀ (P : Type) (rep : bool) (h h1 h2 : list (wop P)) (id : sid) (p : P) (o : orders) (opts : option bopts),
  Forall wop_ok h → NoDup (opened h) → orders_ok o → h = h1 ++ WOpen id :: h2 → 0 < changes h2 →
  sent_to id (w_run rep (h ++ [WBroadcast VNow p o opts])) = sent_to id (w_run rep h) ∧
  sw_socks (w_run rep (h ++ [WBroadcast VNow p o opts])) !! id = sw_socks (w_run rep h) !! id.
Proof. exact @c68_missed_l. Qed.
Print Assumptions C68_missed.
(** The documented "an emission of the namespace without rooms goes to every connected socket" is false after a change. *)
Theorem C68_everybody_refuted : ∃ (h : list (wop string)) (id : sid) (p : string) (o : orders), Forall wop_ok h ∧ NoDup (opened h) ∧ orders_ok o ∧
  sw_socks (w_run false h) !! id = Some (ASock id true) ∧
  sent_to id (w_run false (h ++ [WBroadcast VNow p o None])) = [].
Proof. exact c68_everybody_l. Qed.
Print Assumptions C68_everybody_refuted.

(** "a" and "b" are connected; the adapter is changed; "c" connects.  An emission of the namespace reaches "c" only, one of socket "a" to
    room "r" reaches "b" and not "c", one of an operator kept from before reaches "a" and "b". *)
Definition h_swap : list (wop string) := [WOpen "a"; WOpen "b"; WJoin "b" ["r"]; WSet; WOpen "c"; WJoin "c" ["r"]; WBroadcast VNow "all" orders_std None;
  WBroadcast (VSock "a") "mine" orders_std (Some (BOpts (Some {["r"]}) (Some {["a"]}) None)); WBroadcast (VKept 0) "kept" orders_rev None].
Example C68_example : Forall wop_ok h_swap ∧ NoDup (opened h_swap) ∧
  sent_to "a" (w_run false h_swap) = ["kept"] ∧ sent_to "b" (w_run false h_swap) = ["mine"; "kept"] ∧ sent_to "c" (w_run false h_swap) = ["all"] ∧
  sw_home (w_run false h_swap) !! "b" = Some 0 ∧ sw_home (w_run false h_swap) !! "c" = Some 1 ∧
  length (part 0 h_swap) = 5 ∧ length (part 1 h_swap) = 3.
Proof. split; [repeat apply Forall_cons_2; cbn; try done; split_and!; intros; first [apply ord_std_ok|apply ord_rev_ok]|]. split; [apply (bool_decide_unpack _); vm_compute; exact I|]. split_and!; vm_compute; reflexivity. Qed.
