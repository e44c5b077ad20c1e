(** Property C64: the arguments of emissions in memory. *)
From Verif Require Import Base GoTypes Args ArgsSpec ArgsProofs.

(** ** C64 The arguments of emissions
    Any list of operations of a caller that owns arrays, writes into them and passes slices of them to Emit, EmitWithAck and to the
    broadcast of a parent namespace; any policy [grow] of the built-in append.  The library writes into no array of the caller, if the
    slices given to EmitWithAck have no spare room. *)
Theorem C64_caller : ∀ grow h, ops_ok h → all_full h → mm_caller (as_mem (arun grow h)) = owned h.
Proof. exact caller_owned. Qed.
Print Assumptions C64_caller.
(** What is sent is what the caller's arrays contain when Emit, or the function returned by EmitWithAck, is called. *)
Theorem C64_sent : ∀ grow h, ops_ok h → all_full h → Forall quiet h → as_sent (arun grow h) = over_history sends [] h.
Proof. exact sent_all. Qed.
Print Assumptions C64_sent.
(** The packets in the store keep their contents, whatever the caller does later with its arrays. *)
Theorem C64_stored : ∀ grow h h', ops_ok (h ++ h') →
  (contents (as_mem (arun grow h)) <$> as_stored (arun grow h)) `prefix_of` (contents (as_mem (arun grow (h ++ h'))) <$> as_stored (arun grow (h ++ h'))).
Proof. exact stored_prefix. Qed.
Print Assumptions C64_stored.
(** They are those sent without callback, each with its offset, when no listener writes into its arguments. *)
Theorem C64_stored_as : ∀ grow h, ops_ok h → all_full h → Forall still h → (contents (as_mem (arun grow h)) <$> as_stored (arun grow h)) = over_history stores [] h.
Proof. exact stored_all. Qed.
Print Assumptions C64_stored_as.

(** The caller emits a slice of its array, reuses the array, emits again with a callback and twice through EmitWithAck, and broadcasts to the children
    of a parent namespace, of which two have recovery. *)
Definition plain_opts : eopts := EOpts false true false "" [].
Definition recovering (t : string) : eopts := EOpts true false false t [].
Definition of_array (n off len cap : nat) : slice := Slice (Caller n) off len cap.
Definition args_history : list aop :=
  [ANew [VNum 1; VNum 2; VAck 9]; AEmit (recovering "t1") "a" (of_array 0 0 2 3); AWithAck "q" (of_array 0 0 2 2); ASet 0 0 (VNum 5); AEmit (recovering "t2") "b" (of_array 0 1 2 2);
   AEmit (recovering "t3") "c" (of_array 0 0 1 3); ACall 0 7 plain_opts; AParent [recovering "t4"; plain_opts; recovering "t5"] "d" (of_array 0 1 1 1)].
Example C64_example : ∀ x, x = arun (λ n, n) args_history →
  mm_caller (as_mem x) = [[VNum 5; VNum 2; VAck 9]] ∧
  as_sent x = [[VStr "a"; VNum 1; VNum 2; VStr "t1"]; [VStr "b"; VNum 2]; [VStr "c"; VNum 5; VStr "t3"]; [VStr "q"; VNum 5; VNum 2];
               [VStr "d"; VNum 2; VStr "t4"]; [VStr "d"; VNum 2; VStr "t4"]; [VStr "d"; VNum 2; VStr "t4"; VStr "t5"]] ∧
  contents (as_mem x) <$> as_stored x = [[VStr "a"; VNum 1; VNum 2; VStr "t1"]; [VStr "c"; VNum 5; VStr "t3"]; [VStr "d"; VNum 2; VStr "t4"]; [VStr "d"; VNum 2; VStr "t4"; VStr "t5"]].
Proof. intros x ->. split_and!; vm_compute; reflexivity. Qed.
Ltac slice_in_range := split; [cbn; lia|eexists; split; [reflexivity|right; eexists; split; [vm_compute; reflexivity|cbn; lia]]].
Example C64_hypotheses_example : ops_ok args_history ∧ all_full args_history ∧ Forall still args_history ∧ Forall quiet args_history.
Proof.
  split; [|split; [|split]].
  - intros h1 op h2 E. unfold args_history in E. repeat (destruct h1 as [|? h1]; [injection E as <- E; first [exact I|slice_in_range]|injection E as <- E]). destruct h1; discriminate E.
  - intros ev s Hin. unfold args_history in Hin. repeat (apply elem_of_cons in Hin as [Hin|Hin]; [first [discriminate Hin|by injection Hin as -> ->]|]). by apply elem_of_nil in Hin.
  - repeat constructor.
  - repeat constructor.
Qed.

(** The function returned by EmitWithAck appends the callback to the slice that it was given: with spare room, it writes into the
    caller's array, whose next element is then the callback. *)
Theorem C64_spare_refuted : ∃ h, ops_ok h ∧ ∀ grow, mm_caller (as_mem (arun grow h)) = [[VNum 1; VNum 2; VAck 7]] ∧ owned h = [[VNum 1; VNum 2; VNum 3]].
Proof.
  exists [ANew [VNum 1; VNum 2; VNum 3]; AWithAck "e" (of_array 0 0 2 3); ACall 0 7 plain_opts]. split.
  - intros h1 op h2 E. repeat (destruct h1 as [|? h1]; [injection E as <- E; first [exact I|slice_in_range]|injection E as <- E]). destruct h1; discriminate E.
  - intros grow. split; [|done]. unfold arun. cbn. reflexivity.
Qed.
Print Assumptions C64_spare_refuted.
(** The next emission of the whole array then takes the callback for its own: the third argument is not sent. *)
Theorem C64_spare_sent_refuted : ∃ h, ops_ok h ∧ as_sent (arun (λ n, n) h) = [[VStr "e"; VNum 1; VNum 2]; [VStr "f"; VNum 1; VNum 2]] ∧
  over_history sends [] h = [[VStr "e"; VNum 1; VNum 2]; [VStr "f"; VNum 1; VNum 2; VNum 3]].
Proof.
  exists [ANew [VNum 1; VNum 2; VNum 3]; AWithAck "e" (of_array 0 0 2 3); ACall 0 7 plain_opts; AEmit plain_opts "f" (of_array 0 0 3 3)]. split.
  - intros h1 op h2 E. repeat (destruct h1 as [|? h1]; [injection E as <- E; first [exact I|slice_in_range]|injection E as <- E]). destruct h1; discriminate E.
  - split; vm_compute; reflexivity.
Qed.
Print Assumptions C64_spare_sent_refuted.
(** What is sent is not what the array contained when EmitWithAck was called. *)
Theorem C64_late_refuted : ∃ h, ops_ok h ∧ all_full h ∧ Forall quiet h ∧ h !! 1 = Some (AWithAck "e" (of_array 0 0 1 1)) ∧ owned (take 1 h) = [[VNum 1]] ∧
  ∀ grow, as_sent (arun grow h) = [[VStr "e"; VNum 2]].
Proof.
  exists [ANew [VNum 1]; AWithAck "e" (of_array 0 0 1 1); ASet 0 0 (VNum 2); ACall 0 7 plain_opts]. assert (ops_ok [ANew [VNum 1]; AWithAck "e" (of_array 0 0 1 1); ASet 0 0 (VNum 2); ACall 0 7 plain_opts]) as Hok.
  { intros h1 op h2 E. repeat (destruct h1 as [|? h1]; [injection E as <- E; first [exact I|slice_in_range]|injection E as <- E]). destruct h1; discriminate E. }
  assert (all_full [ANew [VNum 1]; AWithAck "e" (of_array 0 0 1 1); ASet 0 0 (VNum 2); ACall 0 7 plain_opts]) as Hf.
  { intros ev s Hin. repeat (apply elem_of_cons in Hin as [Hin|Hin]; [first [discriminate Hin|by injection Hin as -> ->]|]). by apply elem_of_nil in Hin. }
  assert (Forall quiet [ANew [VNum 1]; AWithAck "e" (of_array 0 0 1 1); ASet 0 0 (VNum 2); ACall 0 7 plain_opts]) as Hq by repeat constructor.
  split; [exact Hok|]. split; [exact Hf|]. split; [exact Hq|]. split; [done|]. split; [done|]. intros grow. rewrite sent_all by done. vm_compute. reflexivity.
Qed.
Print Assumptions C64_late_refuted.
(** An outgoing listener that writes into its arguments changes what Emit sends without recovery, and what a broadcast stores with it:
    there the packet sent before is the original. *)
Theorem C64_listener_refuted : ∃ h, ops_ok h ∧ all_full h ∧ as_sent (arun (λ n, n) h) = [[VStr "e"; VNum 8]; [VStr "e"; VNum 1; VStr "t"]] ∧
  over_history sends [] h = [[VStr "e"; VNum 1]; [VStr "e"; VNum 1; VStr "t"]] ∧
  contents (as_mem (arun (λ n, n) h)) <$> as_stored (arun (λ n, n) h) = [[VStr "e"; VNum 8; VStr "t"]].
Proof.
  exists [ANew [VNum 1]; AEmit (EOpts false true false "" [(1, VNum 8)]) "e" (of_array 0 0 1 1); AEmit (EOpts true true false "t" [(1, VNum 8)]) "e" (of_array 0 0 1 1)]. split; [|split].
  - intros h1 op h2 E. repeat (destruct h1 as [|? h1]; [injection E as <- E; first [exact I|slice_in_range]|injection E as <- E]). destruct h1; discriminate E.
  - intros ev s Hin. repeat (apply elem_of_cons in Hin as [Hin|Hin]; [discriminate Hin|]). by apply elem_of_nil in Hin.
  - split_and!; vm_compute; reflexivity.
Qed.
Print Assumptions C64_listener_refuted.
