From Coq Require Import Ascii.
From Verif Require Import Base GoTypes Options OptionsSpec.

Lemma overrides_alt {A} (given old new : option A) : new = match given with Some v => Some v | None => old end → overrides given old new.
Proof. intros ->. destruct given; constructor. Qed.
Lemma in_use_alt {A} (d : A) o v : v = default d o → in_use d o v.
Proof. intros ->. destruct o; constructor. Qed.
Lemma assign_fields s d : let r := assign s (Some d) in
  overrides (so_serve d) (so_serve s) (so_serve r) ∧ overrides (so_adapter d) (so_adapter s) (so_adapter r) ∧
  overrides (so_parser d) (so_parser s) (so_parser r) ∧ overrides (so_timeout d) (so_timeout s) (so_timeout r) ∧
  overrides (so_csr d) (so_csr s) (so_csr r) ∧ overrides (so_cleanup d) (so_cleanup s) (so_cleanup r).
Proof. destruct d as [[][][][][][]p]; cbn; split_and!; constructor. Qed.
Lemma assign_nil s : assign s None = s. Proof. done. Qed.
Lemma cassign_fields s d : let r := cassign s (Some d) in
  overrides (cp_interval d) (cp_interval s) (cp_interval r) ∧ overrides (cp_timeout d) (cp_timeout s) (cp_timeout r).
Proof. destruct d as [[][]]; cbn; split_and!; constructor. Qed.

Lemma trim_right_spec l : ∃ n, l = trim_right l ++ replicate n "/"%char ∧ ∀ u, trim_right l ≠ u ++ ["/"%char].
Proof.
  induction l as [|c l (n & IH & Hu)]; cbn.
  - exists 0. split; [done|]. by intros [].
  - destruct (trim_right l) as [|x t] eqn:E.
    + cbn in IH. destruct (decide (c = "/"%char)) as [->|Hc].
      * exists (S n). split; [by rewrite IH at 1|]. by intros [].
      * exists n. split; [by rewrite IH at 1|]. intros [|y u]; [by intros [=]|]. intros [= _ H]. by destruct u.
    + exists n. split; [by rewrite IH at 1|]. intros [|y u]; [done|]. intros [= _ H]. by apply Hu in H.
Qed.
Lemma trim_slash_spec s : without_trailing_slashes s (trim_slash s).
Proof.
  destruct (trim_right_spec (list_ascii_of_string s)) as (n & H & Hu). exists n. unfold trim_slash.
  by rewrite list_ascii_of_string_of_list_ascii.
Qed.
Lemma construct_fields opts : let o := default default_sopts opts in let c := construct opts in
  (∃ p, in_use "/socket.io" (so_path o) p ∧ without_trailing_slashes p (sc_path c)) ∧
  in_use 45000%Z (so_timeout o) (sc_timeout c) ∧ in_use false (so_serve o) (sc_serve c) ∧ in_use 0 (so_parser o) (sc_parser c) ∧
  in_use (match so_csr o with Some _ => 1 | None => 0 end) (so_adapter o) (sc_adapter c) ∧ in_use false (so_cleanup o) (sc_cleanup c) ∧
  (is_Some (sc_csr c) ↔ is_Some (so_csr o)).
Proof.
  cbv zeta. set (o := default default_sopts opts). unfold construct. fold o. clearbody o. clear opts.
  cbv zeta. cbn [sc_path sc_timeout sc_serve sc_parser sc_adapter sc_cleanup sc_csr]. split.
  - eexists. split; [|apply trim_slash_spec]. destruct (so_path o); constructor.
  - destruct o as [[][][][][][]p]; cbn; (split_and!; [constructor..|]); by split; intros []; eauto.
Qed.
Lemma construct_csr opts o c : opts = Some o → so_csr o = Some c → so_adapter o = None →
  ∃ c', sc_csr (construct opts) = Some c' ∧ in_use 120000%Z (co_max c) (max_disconnection c') ∧ in_use true (co_skip c) (skip_middlewares c').
Proof.
  intros -> Hc Ha. unfold construct. cbn. rewrite Ha, Hc. cbn. eexists. split; [done|]. destruct c as [[][]]; cbn; split; constructor.
Qed.
Lemma cconstruct_fields data : let o := default (COpts None None) data in let r := cconstruct data in
  in_use 5000%Z (cp_interval o) r.1 ∧ in_use 10000%Z (cp_timeout o) r.2.
Proof. destruct data as [[[][]]|]; cbn; split; constructor. Qed.
(** Merging is associative: assigning two option sets one after the other is assigning their merge. *)
Lemma assign_assoc s d e : assign (assign s (Some d)) (Some e) = assign s (Some (assign d (Some e))).
Proof. destruct d as [[][][][][][]p], e as [[][][][][][]q]; done. Qed.
