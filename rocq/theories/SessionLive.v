(** Replay and live delivery compared. *)
From Verif Require Import Base GoTypes Rooms RoomsSpec RoomsProofs Adapter AdapterSpec AdapterProofs Session SessionSpec SessionProofs.

Lemma replay_live {P} (s : nspace P) (p : P) id os o b : ns_wf s → listed s id → orders_ok os → order_ok o → proper b →
  should_include (o (rooms_of (ns_reg s) id)) (bc_opts b) = Some true ↔
  ∃ new, ns_written (broadcast p os (bc_opts b) s) = ns_written s ++ new ∧ (id, p) ∈ new.
Proof.
  intros Hwf Hl Hos Ho Hp. rewrite should_include_spec by done.
  assert (concerns (rooms_of (ns_reg s) id) b ↔ matches s (opt_rooms (bc_opts b)) (opt_except (bc_opts b)) id) as Hc.
  { destruct Hp as (rs&ex&f&E). unfold concerns, matches, opt_rooms, opt_except. rewrite E. simpl. destruct Hwf as (H1&_). unfold in_room in *.
    setoid_rewrite H1. naive_solver. }
  destruct (broadcast_spec p os (bc_opts b) s Hos Hwf) as (l&Hnd&Hin&E). rewrite E. cbn [ns_written]. split.
  - intros [= Hd%bool_decide_eq_true_1]. eexists. split; [done|]. apply elem_of_list_fmap. exists id. split; [done|]. by apply Hin, Hc.
  - intros (new&En&Hx). apply app_inv_head in En as <-. apply elem_of_list_fmap in Hx as (id'&[= <-]&Hid). f_equal. apply bool_decide_eq_true_2. by apply Hc, Hin.
Qed.
