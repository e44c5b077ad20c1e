(** C71 Nothing is left behind.  See properties.jsonl, GoneSpec.v and SystemSpec.v for the vocabulary. *)
From Verif Require Import Base GoTypes Rooms Adapter Session System SystemSpec SystemExamples GoneSpec SystemGone.

(** A client whose transport closed keeps nothing and stays that way, whatever happens later. *)
Theorem C71_client : ∀ (csr skip clean : bool) (h : list (sords * op)) (c : nat),
  env_ok csr skip clean h → polite csr skip clean h → gone csr skip clean h c →
  blank_client (run csr skip clean h).1 c ∧
  ∀ k a, c_socks (run csr skip clean h).1 !! k = Some a → sk_client a = c → sk_connected a = false.
Proof. exact c71_client_l. Qed.
Print Assumptions C71_client.

(** A namespace whose clients all left, with no middleware running, keeps nothing. *)
Theorem C71_nsp : ∀ (csr skip clean : bool) (h : list (sords * op)) (n : nat),
  env_ok csr skip clean h → polite csr skip clean h → n < length (c_nsps (run csr skip clean h).1) →
  (∀ k a, c_socks (run csr skip clean h).1 !! k = Some a → sk_nsp a = n →
     gone csr skip clean h (sk_client a) ∧ ¬ pending (run csr skip clean h).1 k) →
  blank_nsp (run csr skip clean h).1 n.
Proof. exact c71_nsp_l. Qed.
Print Assumptions C71_nsp.

(** At any time what a namespace stores belongs to sockets of this namespace that are connected, or (for the
    rooms) whose middlewares are running. *)
Theorem C71_tables : ∀ (csr skip clean : bool) (h : list (sords * op)) (n : nat) (np : nspc),
  env_ok csr skip clean h → c_nsps (run csr skip clean h).1 !! n = Some np →
  let x := (run csr skip clean h).1 in
  (∀ i k, np_sockets np !! i = Some k → ∃ a, c_socks x !! k = Some a ∧ sk_id a = i ∧ sk_nsp a = n ∧ sk_connected a = true) ∧
  (∀ i rs, rg_sids (np_reg np) !! i = Some rs → ∃ k a, c_socks x !! k = Some a ∧ sk_id a = i ∧ sk_nsp a = n ∧ alive x k) ∧
  (∀ r ids, rg_rooms (np_reg np) !! r = Some ids →
     ids ≠ ∅ ∧ ∀ i, i ∈ ids → ∃ k a, c_socks x !! k = Some a ∧ sk_id a = i ∧ sk_nsp a = n ∧ alive x k).
Proof. exact c71_tables_l. Qed.
Print Assumptions C71_tables.

Ltac decide_env := first [apply env_dec; [apply hist_ok|] | apply polite_dec]; vm_compute; reflexivity.
(** [h_chat], then the refusal of client 2 and the end of the three connections, of which one is closed by
    the server first, and a late join. *)
Definition h_left : list op :=
  h_chat ++ [OTransport 2 "transport close"; OVerdict 3 None; ODisconnect 1 true; OTransport 0 "forced close"; OTransport 1 "ping timeout"; OJoin 2 ["z"]].
Example C71_example : env_ok true false false (hist h_left) ∧ polite true false false (hist h_left) ∧
  (∀ c, c < 3 → gone true false false (hist h_left) c) ∧ (sk_nsp <$> c_socks (run true false false (hist h_left)).1 = [0; 1; 1; 1]) ∧
  pending (run true false false (hist h_chat)).1 3 ∧
  (np_sockets <$> c_nsps (run true false false (hist h_chat)).1 !! 1 = Some {["s1" := 1; "s2" := 2]}) ∧
  (rg_rooms ∘ np_reg <$> c_nsps (run true false false (hist h_chat)).1 !! 1 =
     Some {["s1" := {["s1"]}; "s2" := {["s2"]}; "q" := {["s2"]}; "r" := {["s1"; "s2"; "s3"]}]}) ∧
  (∀ n, n < 2 → blank_nsp (run true false false (hist h_left)).1 n).
Proof.
  assert (env_ok true false false (hist h_left)) as He by decide_env.
  assert (polite true false false (hist h_left)) as Hp by decide_env.
  assert (∀ c, c < 3 → gone true false false (hist h_left) c) as Hg.
  { intros c Hc. destruct c as [|[|[|c]]]; [| | |lia].
    - exists (hist (take 18 h_left)), os1, "forced close", (hist (drop 19 h_left)). split; vm_compute; [reflexivity|lia].
    - exists (hist (take 19 h_left)), os1, "ping timeout", (hist (drop 20 h_left)). split; vm_compute; [reflexivity|lia].
    - exists (hist (take 15 h_left)), os1, "transport close", (hist (drop 16 h_left)). split; vm_compute; [reflexivity|lia]. }
  split_and!; [done..|vm_compute; reflexivity| |by_eval|by_eval|].
  - eexists. vm_compute. done.
  - intros n Hn. apply C71_nsp; [done..|exact Hn|]. intros k a Hk _.
    assert (Forall (λ b, sk_client b < 3 ∧ sk_can_join b = false) (c_socks (run true false false (hist h_left)).1)) as Hf.
    { vm_compute. repeat constructor. }
    destruct (proj1 (Forall_lookup _ _) Hf k a Hk) as [H1 H2]. split; [by apply Hg|]. intros (b & Hb & _ & Hj). congruence.
Qed.

(** The condition on middlewares is needed: a recovered socket enters its former rooms before its middlewares
    run.  If the connection closes meanwhile and a middleware never finishes, it stays there. *)
Definition h_stuck : list op :=
  [ OOpen "c0" false silent (arr ""); OPacket 0 (Packet CONNECT "/" [] None) silent (Arrival "n" (Some ("s0", ["s0"; "r"], [])));
    OTransport 0 "transport close" ].
Theorem C71_waiting_refuted : ∃ (h : list (sords * op)) (np : nspc),
  env_ok true false false h ∧ polite true false false h ∧
  let x := (run true false false h).1 in
  (∀ c, c < length (c_clients x) → gone true false false h c) ∧ c_nsps x !! 0 = Some np ∧ np_sockets np = ∅ ∧
  rg_rooms (np_reg np) = {["s0" := {["s0"]}; "r" := {["s0"]}]}.
Proof.
  exists (hist h_stuck). eexists. split; [decide_env|]. split; [decide_env|]. cbv zeta. split_and!.
  - intros c Hc. assert (c = 0) as ->. { vm_compute in Hc. lia. }
    exists (hist (take 2 h_stuck)), os1, "transport close", []. split; vm_compute; [reflexivity|lia].
  - reflexivity.
  - by_eval.
  - by_eval.
Qed.
Print Assumptions C71_waiting_refuted.
