(** Runs of a broadcast with joins and leaves in between. *)
From Verif Require Import Base Rooms RoomsConc RoomsConcSpec RoomsConcProofs ApplyConc ApplyConcSpec ApplyConcProofs.

Definition finished_b (c : aconf) : bool := match ac_pc c with ADone => true | _ => false end.
Lemma finished_by c : finished_b c = true → finished c.
Proof. unfold finished_b, finished. by destruct (ac_pc c). Qed.
Definition mv (n : nat) : list alabel := replicate n (AMove None).
Definition rm (i n : nat) : list alabel := replicate n (ARoom i).
Lemma ex_call_ok rooms except g ts socks :
  acall_ok (ACallOf rooms except ord_std ord_std (λ _, ord_std) ord_std (rc_run ord_std g ts []) socks).
Proof. split_and!; cbn; [apply ord_std_ok|apply ord_std_ok|intros; apply ord_std_ok|apply ord_std_ok|by exists g, ts, []]. Qed.

(** x is in q, then joins p, then leaves q: it is always in p or q. *)
Definition mv_reg : registry := Registry {["p" := {["y"]}; "q" := {["x"]}]} {["x" := {["q"]}; "y" := {["p"]}]}.
Definition mv_call : acall := ACallOf {["p"; "q"]} ∅ ord_std ord_std (λ _, ord_std) ord_std
  (rc_run ord_std mv_reg [RcAdd "x" ["p"]; RcDel "x" "q"] []) {["x"; "y"]}.
Definition mv_run : list alabel := mv 6 ++ rm 0 5 ++ rm 1 6 ++ mv 3.

(** x joins the excluded room e, then p. *)
Definition nm_reg : registry := Registry {["e" := {["y"]}]} {["x" := ∅; "y" := {["e"]}]}.
Definition nm_call : acall := ACallOf {["p"]} {["e"]} ord_std ord_std (λ _, ord_std) ord_std
  (rc_run ord_std nm_reg [RcAdd "x" ["e"; "p"]] []) {["x"; "y"]}.
Definition nm_run : list alabel := mv 3 ++ rm 0 9 ++ mv 6.

(** x joins p while its only member leaves: the broadcast has the set that the table has lost. *)
Definition dt_reg : registry := Registry {["p" := {["y"]}]} {["x" := ∅; "y" := {["p"]}]}.
Definition dt_call : acall := ACallOf {["p"]} ∅ ord_std ord_std (λ _, ord_std) ord_std
  (rc_run ord_std dt_reg [RcDel "y" "p"; RcAdd "x" ["p"]] []) {["x"; "y"]}.
Definition dt_run : list alabel := mv 3 ++ rm 0 5 ++ rm 1 3 ++ rm 0 1 ++ rm 1 2 ++ mv 4.

(** b stays in r, c joins it, d is in the excluded room, e disconnects. *)
Definition st_reg : registry := Registry {["r" := {["b"; "d"; "e"]}; "x" := {["d"]}]} {["b" := {["r"]}; "c" := ∅; "d" := {["r"; "x"]}; "e" := {["r"]}]}.
Definition st_call (rooms : gset room) : acall := ACallOf rooms {["x"]} ord_std ord_std (λ _, ord_std) ord_std
  (rc_run ord_std st_reg [RcAdd "c" ["r"]; RcDelAll "e"] []) {["b"; "c"; "d"; "e"]}.
Definition st_run : list alabel := mv 4 ++ rm 0 5 ++ mv 1 ++ rm 1 2 ++ mv 2 ++ [AListed "e" false] ++ mv 4 ++ rm 1 9 ++ mv 6.
(** The same without rooms: the keys of the table in turn. *)
Definition st_range : list alabel :=
  mv 5 ++ rm 0 5 ++ [AMove (Some "c")] ++ mv 2 ++ rm 1 2 ++ [AListed "e" false; AMove (Some "e")] ++ rm 1 9 ++ mv 1 ++
  [AMove (Some "d"); AMove None; AMove (Some "b")] ++ mv 3.
