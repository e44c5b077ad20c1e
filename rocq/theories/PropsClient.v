(** Properties C52 and C53: the connect timer and errors of a connection. *)
From Verif Require Import Base GoTypes Rooms Adapter AdapterSpec Session System SystemSpec SystemProofs SystemLife SystemPolite SystemTimer SystemExamples.

Ltac decide_env := first [apply env_dec; [apply hist_ok|] | apply polite_dec | apply attended_dec]; vm_compute; reflexivity.

(** ** C52 Connect timeout
    The timer fires while no socket of the connection was ever announced: the connection is closed; nothing
    else happens, and no socket of it was connected. *)
Theorem C52_expires : ∀ (csr skip clean : bool) (h : list (sords * op)) (os : sords) (c : nat),
  env_ok csr skip clean (h ++ [(os, OTimer c)]) → let s := run csr skip clean h in let s' := run csr skip clean (h ++ [(os, OTimer c)]) in
  is_open s.1 c = true → ¬ came s.2 c →
  is_open s'.1 c = false ∧ s'.2 = s.2 ++ [(s.1, EHangup c)] ∧ c_socks s'.1 = c_socks s.1 ∧ c_nsps s'.1 = c_nsps s.1 ∧
  (∀ c', c' ≠ c → c_clients s'.1 !! c' = c_clients s.1 !! c') ∧ ∀ k a, c_socks s'.1 !! k = Some a → sk_client a = c → sk_connected a = false.
Proof. exact c52_expires_l. Qed.
Print Assumptions C52_expires.
(** Once a socket was announced the timer changes nothing, whatever happened to that socket. *)
Theorem C52_joined : ∀ (csr skip clean : bool) (h : list (sords * op)) (os : sords) (c : nat),
  env_ok csr skip clean h → came (run csr skip clean h).2 c → step csr skip clean (os, OTimer c) (run csr skip clean h) = run csr skip clean h.
Proof. exact c52_joined_l. Qed.
Print Assumptions C52_joined.
(** Client 2 is waiting for the middlewares of "/chat" when its timer fires; client 0 joined and left. *)
Example C52_example : env_ok false false false (hist (h_chat ++ [OTimer 2])) ∧
  is_open (run false false false (hist h_chat)).1 2 = true ∧
  omap (λ e, match e.2 with EConnection k => Some k | _ => None end) (run false false false (hist h_chat)).2 = [0; 1; 2] ∧
  sk_client <$> c_socks (run false false false (hist h_chat)).1 = [0; 0; 1; 2] ∧
  cl_open <$> c_clients (run false false false (hist (h_chat ++ [OTimer 2]))).1 = [true; true; false] ∧
  cl_open <$> c_clients (run false false false (hist (h_chat ++ [ODisconnect 0 false; ODisconnect 1 false; OTimer 0]))).1 = [true; true; true].
Proof. split; [decide_env|]. split_and!; vm_compute; reflexivity. Qed.

(** ** C53 Errors of a connection
    Every connected socket of the connection gets the error event once and then the connection is closed. *)
Theorem C53_error_partial : ∀ (csr skip clean : bool) (h : list (sords * op)) (os : sords) (c : nat),
  env_ok csr skip clean (h ++ [(os, OError c)]) → polite csr skip clean h →
  let s := run csr skip clean h in let s' := run csr skip clean (h ++ [(os, OError c)]) in
  ∃ ks, NoDup ks ∧ (∀ k, k ∈ ks ↔ of_client s.1 c k) ∧ s'.2 = s.2 ++ ((λ k, (s.1, EErr k)) <$> ks) ++ [(s.1, EHangup c)] ∧
    is_open s'.1 c = false ∧ c_socks s'.1 = c_socks s.1 ∧ c_nsps s'.1 = c_nsps s.1 ∧ ∀ c', c' ≠ c → c_clients s'.1 !! c' = c_clients s.1 !! c'.
Proof. exact c53_error_l. Qed.
Print Assumptions C53_error_partial.
(** A closed connection is closed for good: its packets are ignored and Client._packet writes nothing to it. *)
Theorem C53_after : ∀ (csr skip clean : bool) (h1 h2 : list (sords * op)) (c : nat) (os : sords) (p : packet) (ans : nat → option bool) (x : arrival),
  env_ok csr skip clean (h1 ++ h2) → c < length (c_clients (run csr skip clean h1).1) → is_open (run csr skip clean h1).1 c = false →
  let s := run csr skip clean (h1 ++ h2) in step csr skip clean (os, OPacket c p ans x) s = s ∧ write c p s = s.
Proof. exact c53_after_l. Qed.
Print Assumptions C53_after.
Example C53_example : env_ok false false false (hist (h_chat ++ [OError 0])) ∧ polite false false false (hist h_chat) ∧
  omap (λ e, match e.2 with EErr k => Some (inl k) | EHangup c => Some (inr c) | _ => None end) (run false false false (hist (h_chat ++ [OError 0]))).2 =
    [inl 0; inl 1; inr 0] ∧
  cl_open <$> c_clients (run false false false (hist (h_chat ++ [OError 0]))).1 = [false; true; true].
Proof. split; [decide_env|]. split; [decide_env|]. split; vm_compute; reflexivity. Qed.
(** What [polite] excludes: two sockets with the same id (protocol 3); the first is not told. *)
Definition h_twins := [OOpen "c0" true silent (arr ""); OVerdict 0 None; OOf "/chat" None; enters 0 "/chat" ""; enters 0 "/chat" ""; OVerdict 1 None; OVerdict 2 None].
Theorem C53_same_id_refuted : ∃ (h : list (sords * op)) (os : sords) (c k : nat), env_ok false false false (h ++ [(os, OError c)]) ∧
  of_client (run false false false h).1 c k ∧ EErr k ∉ (run false false false (h ++ [(os, OError c)])).2.*2.
Proof.
  exists (hist h_twins), os1, 0, 1. change (hist h_twins ++ _) with (hist (h_twins ++ [OError 0])).
  split; [decide_env|]. split.
  - exists (Sock "/chat#c0" 1 0 true true false). vm_compute. done.
  - intros H. assert (omap (λ e, match e with EErr k => Some k | _ => None end) (run false false false (hist (h_twins ++ [OError 0]))).2.*2 = [0; 2]) as E by (vm_compute; reflexivity).
    assert (1 ∈ [0; 2]) as H'; [|apply elem_of_list_In in H'; cbn in H'; destruct H' as [H'|[H'|[]]]; discriminate]. rewrite <- E. apply elem_of_list_omap. exists (EErr 1). split; [exact H|reflexivity].
Qed.
Print Assumptions C53_same_id_refuted.
