(** Specification of operators as immutable values. *)
From Verif Require Import Base GoTypes Operator.

(** What an operator means: adapter, target rooms, excluded rooms, flags. *)
Record target := Target { t_adapter : nat; t_rooms : gset room; t_except : gset room; t_flags : flags }.
Definition denote (h : heap) (b : operator) : option target :=
  match h_sets h !! op_rooms b, h_sets h !! op_except b, h_flags h !! op_flags b with
  | Some r, Some e, Some f => Some (Target (op_adapter b) r e f)
  | _, _, _ => None
  end.

Definition targets_of (m : modif) : list room := match m with MTo rs | MIn rs => rs | _ => [] end.
Definition excludes_of (m : modif) : list room := match m with MExcept rs => rs | _ => [] end.
Definition compress_of (m : modif) : option bool := match m with MCompress b => Some b | _ => None end.
Definition timeout_of (m : modif) : option N := match m with MTimeout t => Some t | _ => None end.

(** A chain of calls [b.m1().m2()...]. *)
Fixpoint run_chain (ms : list modif) (b : operator) (h : heap) : operator * heap :=
  match ms with [] => (b, h) | m :: ms => let '(b', h') := op_modif m b h in run_chain ms b' h' end.

(** The target a chain denotes, given the target it starts from: unions of rooms,
    last value of Compress and Timeout, Volatile and Local once set. *)
Definition chain_target (ms : list modif) (t t' : target) : Prop :=
  t_adapter t' = t_adapter t ∧
  (∀ r, r ∈ t_rooms t' ↔ r ∈ t_rooms t ∨ ∃ m, m ∈ ms ∧ r ∈ targets_of m) ∧
  (∀ r, r ∈ t_except t' ↔ r ∈ t_except t ∨ ∃ m, m ∈ ms ∧ r ∈ excludes_of m) ∧
  fl_compress (t_flags t') = default (fl_compress (t_flags t)) (last (omap compress_of ms)) ∧
  fl_timeout (t_flags t') = (match last (omap timeout_of ms) with Some x => Some x | None => fl_timeout (t_flags t) end) ∧
  (fl_volatile (t_flags t') = true ↔ fl_volatile (t_flags t) = true ∨ MVolatile ∈ ms) ∧
  (fl_local (t_flags t') = true ↔ fl_local (t_flags t) = true ∨ MLocal ∈ ms) ∧
  fl_pre_encoded (t_flags t') = fl_pre_encoded (t_flags t) ∧
  fl_broadcast (t_flags t') = fl_broadcast (t_flags t) ∧
  fl_binary (t_flags t') = fl_binary (t_flags t) ∧
  fl_single (t_flags t') = fl_single (t_flags t).

(** The events that cannot be emitted: the reserved names of sockets, and those of namespaces. *)
Definition reserved : gset string :=
  {["connect"; "connect_error"; "disconnect"; "disconnecting"; "newListener"; "removeListener"]}.
Definition reserved_nsp : gset string := {["connect"; "connection"; "new_namespace"]}.

(** Modifiers called on socket [k] since its last accepted emission or operator
    creation, oldest first. *)
Definition consumes (k : nat) (c : call) : bool :=
  match c with
  | CFromSocket k' => bool_decide (k' = k)
  | CSockEmit k' _ _ ev _ => bool_decide (k' = k ∧ ev ∉ reserved)
  | _ => false
  end.
Definition pending_of (k : nat) (c : call) : option modif :=
  match c with CSockFlag k' m => if decide (k' = k) then Some m else None | _ => None end.
Fixpoint pending (k : nat) (cs : list call) (acc : list modif) : list modif :=
  match cs with
  | [] => acc
  | c :: cs => pending k cs (if consumes k c then [] else match pending_of k c with Some m => acc ++ [m] | None => acc end)
  end.
(** The flags those modifiers amount to. *)
Definition flags_of (ms : list modif) : flags := foldl (λ f m, modif_flags m f) no_flags ms.

(** The same, read field by field: last value of Compress and Timeout, Volatile once set. *)
Definition flags_law (ms : list modif) (f : flags) : Prop :=
  fl_compress f = default false (last (omap compress_of ms)) ∧
  fl_timeout f = last (omap timeout_of ms) ∧
  (fl_volatile f = true ↔ MVolatile ∈ ms) ∧
  (fl_local f = true ↔ MLocal ∈ ms) ∧
  fl_pre_encoded f = false ∧ fl_broadcast f = false ∧ fl_binary f = false ∧ fl_single f = false.

(** What an emission carries. *)
Definition emission_flags (e : emission) : option flags :=
  match e with EBroadcast _ _ o | EBroadcastAck _ _ o _ => bo_flags o | EPacket _ _ _ f => Some f | EServerSide _ _ => None end.
Definition emission_opts (e : emission) : option bopts :=
  match e with EBroadcast _ _ o | EBroadcastAck _ _ o _ => Some o | _ => None end.
Definition emission_target (e : emission) : option target :=
  match e with
  | EBroadcast ad _ (BOpts (Some r) (Some x) (Some f)) | EBroadcastAck ad _ (BOpts (Some r) (Some x) (Some f)) _ => Some (Target ad r x f)
  | _ => None
  end.
#[global] Instance target_eq_dec : EqDecision target.
Proof. solve_decision. Defined.
#[global] Instance osock_eq_dec : EqDecision osock.
Proof. solve_decision. Defined.
#[global] Instance operator_eq_dec : EqDecision operator.
Proof. solve_decision. Defined.
