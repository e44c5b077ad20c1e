(** Concrete schedules for the statements about the table of namespaces under concurrency. *)
From Verif Require Import Base NspConc NspConcSpec.

(** A call of Of("/x"); clients that connect to "/d", which the function of parent 7 accepts; one that nobody accepts. *)
Definition nx_of : nthread := NThread "/x" None None None PStart.
Definition nx_client (id : string) : nthread := NThread "/d" (Some (id, true)) (Some 7) None PStart.
Definition nx_denied : nthread := NThread "/e" (Some ("z", true)) None None PStart.
(** Enters: nine steps when it creates the namespace, three when it finds it. *)
Definition nx_create (i : nat) : list nat := replicate 9 i.
Definition nx_enter (i : nat) : list nat := replicate 3 i.
Lemma nx_unbegun ts : forallb (λ t, match nt_pc t with PStart => true | _ => false end) ts = true → unbegun ts.
Proof.
  intros H. unfold unbegun. apply Forall_forall. intros t Ht. rewrite forallb_forall in H. specialize (H t ltac:(by apply elem_of_list_In)).
  by destruct (nt_pc t).
Qed.

(** Two calls of Of find the name unregistered. *)
Lemma one_per_name_witness : ¬ one_per_name.
Proof.
  intros H. specialize (H [nx_of; nx_of] [0; 1; 0; 0; 0; 1; 1; 1] 0 1
    (NThread "/x" None None None (PGot 0)) (NThread "/x" None None None (PGot 1)) 0 1 ltac:(by apply nx_unbegun)
    eq_refl eq_refl eq_refl eq_refl eq_refl eq_refl eq_refl). done.
Qed.
(** A client has asked the parents; another creates the namespace and enters it; the first replaces it. *)
Definition nx_split : list nat := [1; 1; 1] ++ nx_create 0 ++ replicate 6 1.
Lemma together_witness : ¬ together.
Proof.
  intros H. specialize (H [nx_client "a"; nx_client "b"] nx_split 0 1
    (NThread "/d" (Some ("a", true)) (Some 7) None (PIn 0)) (NThread "/d" (Some ("b", true)) (Some 7) None (PIn 1)) 0 1 ltac:(by apply nx_unbegun)
    eq_refl eq_refl eq_refl eq_refl eq_refl). done.
Qed.
(** The last client leaves; another was given the namespace and enters it after the test for emptiness. *)
Definition nx_late : list nat := nx_create 0 ++ [1; 1] ++ [0; 0; 0] ++ [0; 0; 0] ++ [1].
Lemma in_registered_witness : ¬ in_registered.
Proof.
  intros H. assert (H' : n_table (nrun true (ninit [nx_client "a"; nx_client "b"]) nx_late) !! "/d" = Some 0).
  { apply (H _ nx_late 1 (NThread "/d" (Some ("b", true)) (Some 7) None (PIn 0)) 0); [by apply nx_unbegun| |reflexivity|reflexivity].
    intros o x Hx _. apply lookup_lt_Some in Hx. assert (E : length (n_objs (nrun true (ninit [nx_client "a"; nx_client "b"]) nx_late)) = 1) by (vm_compute; reflexivity).
    lia. }
  vm_compute in H'. discriminate H'.
Qed.
Lemma in_open_witness : ¬ in_open.
Proof.
  intros H.
  assert (E : ∃ x, n_objs (nrun true (ninit [nx_client "a"; nx_client "b"]) nx_late) !! 0 = Some x ∧ no_closed x = true)
    by (eexists; split; vm_compute; reflexivity).
  destruct E as (x & Hx & E).
  specialize (H [nx_client "a"; nx_client "b"] nx_late 1 (NThread "/d" (Some ("b", true)) (Some 7) None (PIn 0)) 0 x ltac:(by apply nx_unbegun)
    eq_refl eq_refl Hx). congruence.
Qed.
(** Two clients leave, both find the namespace empty; one unregisters it, a third creates the next one, the other unregisters that. *)
Definition nx_stale : list nat := nx_create 0 ++ nx_enter 1 ++ [0; 0; 1; 1] ++ [0; 0] ++ [1; 1; 1] ++ nx_create 2.
Lemma removes_itself_witness : ¬ removes_itself.
Proof.
  intros H. set (ts := [nx_client "a"; nx_client "b"; nx_client "c"]).
  assert (H' : n_table (nstep true (nrun true (ninit ts) nx_stale) 0) !! "/d" = Some 1).
  { apply (H ts nx_stale 0 (NThread "/d" (Some ("a", true)) (Some 7) None (PDelete 0)) 0 "/d" 1); [by apply nx_unbegun|vm_compute; reflexivity..|done]. }
  vm_compute in H'. discriminate H'.
Qed.
(** A client finds the name registered; the last one in the namespace leaves; Of creates a namespace for the first, without parent. *)
Definition nx_orphan : list nat := nx_create 0 ++ [1] ++ replicate 6 0 ++ replicate 5 1.
Lemma accepted_witness : ¬ accepted.
Proof.
  intros H.
  assert (E : ∃ x, n_objs (nrun true (ninit [nx_client "a"; nx_client "b"]) nx_orphan) !! 1 = Some x ∧ no_parent x = None)
    by (eexists; split; vm_compute; reflexivity).
  destruct E as (x & Hx & E).
  destruct (H [nx_client "a"; nx_client "b"] nx_orphan 1 (NThread "/d" (Some ("b", true)) (Some 7) None (PIn 1)) 1 x) as [p Hp];
    [by apply nx_unbegun|by repeat constructor|vm_compute; reflexivity|done|exact Hx|]. congruence.
Qed.
