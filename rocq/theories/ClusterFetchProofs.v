(** Proofs about [ClusterFetch.v]. *)
From Verif Require Import Base GoTypes Rooms RoomsSpec RoomsProofs Adapter AdapterSpec AdapterProofs Cluster ClusterSpec ClusterProofs ClusterReq ClusterReqSpec ClusterReqProofs ClusterExamples ClusterAckProofs ClusterFetch ClusterFetchSpec.

(** *** What one step does *)
Section steps.
  Context (timeout : Z).
  Notation step := (fstep timeout).

  Definition fetch_ev (nd : fnode) (cb : nat) (rid : string) (opts : option bopts) (os : orders) : hev :=
    HFetch (is_local opts) cb rid (local_details <$> fetch_sockets os opts (fn_ns nd)).
  (** The handlers of [ClusterReq.v] that run on server [n]. *)
  Definition evs (s : fcluster) (op : fop) (n : string) : list hev :=
    match op with
    | FFetch n' cb rid opts _ _ _ _ os => if decide (n' = n) then match fc_nodes s !! n with Some nd => [fetch_ev nd cb rid opts os] | None => [] end else []
    | FEmit n' (Some cb) rid _ _ _ _ => if decide (n' = n) then [HEmit cb rid] else []
    | FDeliver i t o os =>
        match fc_net s !! i with
        | Some (d, m) => if decide (d = n) then match m with QResponse u r => [HResponse u r] | QFetch u _ _ | QEmit u _ _ _ => [HMessage t o u MOperation] end else []
        | None => []
        end
    | FTimer n' rid => if decide (n' = n) then [HTimer rid] else []
    | FMessage n' t o u m => if decide (n' = n) then [HMessage t o u m] else []
    | FCheck n' t on o => if decide (n' = n) then [HCheck t on o] else []
    | _ => []
    end.
  (** What the listeners of server [n] are called with. *)
  Definition hears (s : fcluster) (op : fop) (n : string) : list (nat * (string * list value)) :=
    match op with
    | FDeliver i _ _ _ =>
        match fc_net s !! i with
        | Some (d, QEmit u _ packet tag) => if decide (d = n ∧ u ≠ n) then match server_side_event packet with Some ev => [(tag, ev)] | None => [] end else []
        | _ => []
        end
    | _ => []
    end.
  Definition acks_next (s : fcluster) (op : fop) (n : string) (m : gmap (string * string) bool) : gmap (string * string) bool :=
    match op with
    | FDeliver i _ _ _ =>
        match fc_net s !! i with
        | Some (d, QEmit u (Some rid) packet tag) => if decide (d = n ∧ u ≠ n) then match server_side_event packet with Some ev => <[(u, rid) := false]> m | None => m end else m
        | _ => m
        end
    | FAnswer n' u rid _ => if decide (n' = n ∧ m !! (u, rid) = Some false) then <[(u, rid) := true]> m else m
    | _ => m
    end.
  Definition ns_next (op : fop) (n : string) (ns : nspace ()) : nspace () :=
    match op with FLocal n' l => if decide (n' = n) then local_op l ns else ns | _ => ns end.
  Definition node_next (s : fcluster) (op : fop) (n : string) (nd : fnode) : fnode :=
    FNode (ns_next op n (fn_ns nd)) (foldl (hstep n timeout) (fn_hb nd) (evs s op n)) (fn_heard nd ++ hears s op n) (acks_next s op n (fn_acks nd)).

  Lemma step_node s op n : fc_nodes (step s op) !! n = node_next s op n <$> fc_nodes s !! n.
  Proof.
    unfold step, fstep. cbn [fc_nodes]. unfold node_next, evs, hears, acks_next, ns_next.
    assert (Hid : ∀ nd, FNode (fn_ns nd) (fn_hb nd) (fn_heard nd ++ []) (fn_acks nd) = nd) by (intros []; cbn; by rewrite app_nil_r).
    assert (Hno : fc_nodes s !! n = (λ nd, FNode (fn_ns nd) (fn_hb nd) (fn_heard nd ++ []) (fn_acks nd)) <$> fc_nodes s !! n).
    { destruct (fc_nodes s !! n) as [nd|]; [cbn; by rewrite Hid|done]. }
    assert (Hal : ∀ n' f (nodes : gmap string fnode), nodes !! n = fc_nodes s !! n → alter f n' nodes !! n = (if decide (n' = n) then f <$> fc_nodes s !! n else fc_nodes s !! n)).
    { intros n' f nodes E. destruct (decide (n' = n)) as [->|]; [by rewrite lookup_alter, E|by rewrite lookup_alter_ne]. }
    destruct op as [n' cb rid opts pub echo e1 e2 os|n' [cb|] rid ev args pub echo|i t o os|n' u rid args|n' rid|n' t o u m|n' t on o|n' l]; cbn [fstep_body].
    - unfold do_fetch, fpublish, fsend, on_fnode. destruct (fc_nodes s !! n') as [nd|] eqn:E.
      + cbn [fc_nodes]. rewrite (Hal n') by done. destruct (decide (n' = n)) as [->|]; [|done]. rewrite E. cbn. by rewrite app_nil_r.
      + destruct (decide (n' = n)) as [->|]; [by rewrite E|done].
    - unfold do_emit, fpublish, fsend, on_fnode. destruct (fc_nodes s !! n') as [nd|] eqn:E.
      + cbn [fc_nodes]. rewrite (Hal n') by done. destruct (decide (n' = n)) as [->|]; [|done]. rewrite E. cbn. by rewrite app_nil_r.
      + destruct (decide (n' = n)) as [->|]; [by rewrite E|done].
    - unfold do_emit, fpublish, fsend, on_fnode. by destruct (fc_nodes s !! n') as [nd|] eqn:E.
    - destruct (fc_net s !! i) as [[d m]|]; [|done]. unfold freceive. cbn [fc_nodes].
      destruct (fc_nodes s !! d) as [nd|] eqn:E.
      2: { destruct m as [u rid po|u [rid|] pk tg|u r]; destruct (decide (d = n)) as [->|]; try (by rewrite E); try exact Hno; (destruct (decide (d = n ∧ u ≠ n)) as [[]|]; [done|exact Hno]). }
      destruct m as [u rid po|u rid pk tg|u r].
      + destruct (decide (u = d)) as [->|]; unfold fsend, on_fnode; cbn [fc_nodes]; rewrite (Hal d) by done; (destruct (decide (d = n)) as [->|]; [|done]); rewrite E; cbn; by rewrite app_nil_r.
      + destruct (decide (u = d)) as [->|Hud].
        { unfold on_fnode; cbn [fc_nodes]; rewrite (Hal d) by done. destruct (decide (d = n)) as [->|].
          - destruct (decide (n = n ∧ n ≠ n)) as [[_ []]|]; [done|]. rewrite E; cbn. rewrite app_nil_r. f_equal. unfold f_hb. f_equal. destruct rid; done.
          - destruct (decide (d = n ∧ d ≠ n)) as [[]|]; [done|]. destruct rid; done. }
        destruct (server_side_event pk) as [ev|].
        * unfold on_fnode; cbn [fc_nodes]. destruct (decide (d = n)) as [->|].
          -- rewrite !lookup_alter, E. destruct (decide (n = n ∧ u ≠ n)) as [_|[]]; [|done]. by destruct rid.
          -- rewrite !lookup_alter_ne by done. destruct (decide (d = n ∧ u ≠ n)) as [[]|]; [done|]. destruct rid; exact Hno.
        * unfold on_fnode; cbn [fc_nodes]; rewrite (Hal d) by done. destruct (decide (d = n)) as [->|].
          -- destruct (decide (n = n ∧ u ≠ n)) as [_|[]]; [|done]. rewrite E; cbn. rewrite app_nil_r. unfold f_hb. by destruct rid.
          -- destruct (decide (d = n ∧ u ≠ n)) as [[]|]; [done|]. destruct rid; exact Hno.
      + unfold on_fnode; cbn [fc_nodes]; rewrite (Hal d) by done; (destruct (decide (d = n)) as [->|]; [|done]); rewrite E; cbn; by rewrite app_nil_r.
    - unfold do_answer. destruct (fc_nodes s !! n') as [nd|] eqn:E.
      2: { destruct (decide (n' = n)) as [->|]; [by rewrite E|]. rewrite Hno at 1. destruct (fc_nodes s !! n); [|done]. cbn. by rewrite decide_False by tauto. }
      destruct (fn_acks nd !! (u, rid)) as [[|]|] eqn:Ea.
      1,3: destruct (decide (n' = n)) as [->|]; rewrite Hno at 1; (destruct (fc_nodes s !! n) as [nd'|] eqn:E'; [|done]); cbn; (rewrite decide_False; [done|]); [simplify_eq; rewrite Ea; by intros [_ ?]|tauto].
      unfold fsend, on_fnode. cbn [fc_nodes]. rewrite (Hal n') by done. destruct (decide (n' = n)) as [->|].
      + rewrite E. cbn. rewrite app_nil_r, decide_True by done. done.
      + rewrite Hno at 1. destruct (fc_nodes s !! n); [|done]. cbn. by rewrite decide_False by tauto.
    - unfold on_fnode; cbn [fc_nodes]. rewrite (Hal n') by done. destruct (decide (n' = n)) as [->|]; [|done]. destruct (fc_nodes s !! n); [|done]. cbn. by rewrite app_nil_r.
    - unfold on_fnode; cbn [fc_nodes]. rewrite (Hal n') by done. destruct (decide (n' = n)) as [->|]; [|done]. destruct (fc_nodes s !! n); [|done]. cbn. by rewrite app_nil_r.
    - unfold on_fnode; cbn [fc_nodes]. rewrite (Hal n') by done. destruct (decide (n' = n)) as [->|]; [|done]. destruct (fc_nodes s !! n); [|done]. cbn. by rewrite app_nil_r.
    - unfold on_fnode; cbn [fc_nodes]. rewrite (Hal n') by done. destruct (decide (n' = n)) as [->|]; [|done]. destruct (fc_nodes s !! n); [|done]. cbn. by rewrite app_nil_r.
  Qed.
  Lemma step_dom s op : dom (fc_nodes (step s op)) = dom (fc_nodes s).
  Proof. apply set_eq. intros n. rewrite !elem_of_dom, step_node. destruct (fc_nodes s !! n); cbn; split; intros []; eauto; done. Qed.
  Lemma step_count s op : fc_step (step s op) = S (fc_step s).
  Proof. done. Qed.

  (** Does the call reach the others. *)
  Definition asking (s : fcluster) (op : fop) : bool :=
    match op with
    | FFetch n cb rid opts pub _ _ _ os => match fc_nodes s !! n with Some nd => existsb is_request (published timeout n (fetch_ev nd cb rid opts os) (fn_hb nd)) && pub | None => false end
    | FEmit n (Some cb) rid _ _ pub _ => match fc_nodes s !! n with Some nd => existsb is_request (published timeout n (HEmit cb rid) (fn_hb nd)) && pub | None => false end
    | FEmit n None _ _ _ pub _ => match fc_nodes s !! n with Some nd => pub | None => false end
    | _ => false
    end.
  Definition dests (s : fcluster) (n : string) (echo : bool) : list string := elements (if echo then dom (fc_nodes s) else dom (fc_nodes s) ∖ {[n]}).
  Definition sends (s : fcluster) (op : fop) : list (string * fmsg) :=
    match op with
    | FFetch n cb rid opts pub echo e1 e2 os => if asking s op then (λ d, (d, QFetch n rid (encode_options e1 e2 opts))) <$> dests s n echo else []
    | FEmit n ack rid ev args pub echo => if asking s op then (λ d, (d, QEmit n (match ack with Some _ => Some rid | None => None end) (VStr ev :: args) (fc_step s))) <$> dests s n echo else []
    | FDeliver i t o os =>
        match fc_net s !! i with
        | Some (d, QFetch u rid po) =>
            match fc_nodes s !! d with
            | Some nd => if decide (u = d) then [] else [(u, QResponse d (RSockets rid (remote_details (fn_ns nd) <$> fetch_sockets os (Some (decode_options (Some po))) (fn_ns nd))))]
            | None => []
            end
        | _ => []
        end
    | FAnswer n u rid args => match fc_nodes s !! n with Some nd => if decide (fn_acks nd !! (u, rid) = Some false) then [(u, QResponse n (REmitted rid args))] else [] | None => [] end
    | _ => []
    end.
  Definition kept (s : fcluster) (op : fop) : list (string * fmsg) := match op with FDeliver i _ _ _ => delete i (fc_net s) | _ => fc_net s end.
  Lemma step_net s op : fc_net (step s op) = kept s op ++ sends s op.
  Proof.
    unfold step, fstep. cbn [fc_net]. unfold kept, sends, asking, dests.
    destruct op as [n' cb rid opts pub echo e1 e2 os|n' [cb|] rid ev args pub echo|i t o os|n' u rid args|n' rid|n' t o u m|n' t on o|n' l]; cbn [fstep_body]; try (by rewrite app_nil_r).
    - unfold do_fetch. destruct (fc_nodes s !! n') as [nd|]; [|by rewrite app_nil_r]. unfold fpublish, fsend, on_fnode. cbn [fc_net fc_nodes]. rewrite dom_alter_L. done.
    - unfold do_emit. destruct (fc_nodes s !! n') as [nd|]; [|by rewrite app_nil_r]. unfold fpublish, fsend, on_fnode. cbn [fc_net fc_nodes fc_step]. rewrite dom_alter_L. done.
    - unfold do_emit. destruct (fc_nodes s !! n') as [nd|]; [|by rewrite app_nil_r]. done.
    - destruct (fc_net s !! i) as [[d m]|] eqn:E.
      + unfold freceive. cbn [fc_nodes]. destruct (fc_nodes s !! d) as [nd|]; [|destruct m; by rewrite app_nil_r].
        destruct m as [u rid po|u rid pk tg|u r]; [destruct (decide (u = d)); [by rewrite app_nil_r|done]| |by rewrite app_nil_r].
        rewrite app_nil_r. destruct (decide (u = d)); [done|]. by destruct (server_side_event pk).
      + rewrite app_nil_r. assert (length (fc_net s) ≤ i) by by apply lookup_ge_None. rewrite delete_take_drop, take_ge, drop_ge, app_nil_r by lia. done.
    - unfold do_answer. destruct (fc_nodes s !! n') as [nd|]; [|by rewrite app_nil_r].
      destruct (decide (fn_acks nd !! (u, rid) = Some false)) as [E|E]; [by rewrite E|]. destruct (fn_acks nd !! (u, rid)) as [[]|]; [by rewrite app_nil_r|done|by rewrite app_nil_r].
  Qed.

  (** When a request asks the others: it is not local and another server is known. *)
  Lemma asking_fetch s n cb rid opts pub echo e1 e2 os nd : fc_nodes s !! n = Some nd →
    asking s (FFetch n cb rid opts pub echo e1 e2 os) = negb (is_local opts) && negb (bool_decide (hb_nodes (fn_hb nd) = ∅)) && pub.
  Proof.
    intros E. unfold asking. rewrite E. f_equal. unfold published, fetch_ev. cbn [hstep]. unfold fetch, server_count. cbn [Nat.sub].
    destruct (is_local opts); cbn [orb negb andb].
    { cbn. by rewrite drop_all. }
    destruct (decide (hb_nodes (fn_hb nd) = ∅)) as [E0|E0].
    - rewrite E0, map_size_empty. cbn. by rewrite drop_all.
    - rewrite (bool_decide_eq_false_2 _ E0). rewrite bool_decide_eq_false_2; [|rewrite Nat.sub_0_r; by rewrite map_size_empty_iff]. cbn. rewrite drop_app. done.
  Qed.
  Lemma asking_emit s n cb rid ev args pub echo nd : fc_nodes s !! n = Some nd →
    asking s (FEmit n (Some cb) rid ev args pub echo) = negb (bool_decide (hb_nodes (fn_hb nd) = ∅)) && pub.
  Proof.
    intros E. unfold asking. rewrite E. f_equal. unfold published. cbn [hstep]. unfold server_emit.
    destruct (decide (hb_nodes (fn_hb nd) = ∅)) as [E0|E0].
    - rewrite E0, map_size_empty. cbn. by rewrite drop_all.
    - rewrite (bool_decide_eq_false_2 _ E0). rewrite decide_False by by rewrite map_size_empty_iff. cbn. rewrite drop_app. done.
  Qed.
End steps.
