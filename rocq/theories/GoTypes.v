(** Data shared by the models: Go values, packets, flags and broadcast options. *)
From Verif Require Import Base.

(** A Go [any] as it appears in event arguments.  Simplification: only the
    distinctions the code makes are kept ([nil], string, []any, map, []string, an
    acknowledgement function, and opaque other values). *)
Inductive value :=
  | VNil
  | VStr (s : string)
  | VNum (n : Z)
  | VBool (b : bool)
  | VArr (l : list value)                  (* []any *)
  | VMap (l : list (string * value))       (* map[string]any *)
  | VStrs (l : list string)                (* []string *)
  | VAck (n : nat)                         (* a func([]any, error), identified by n *)
  | VObj (n : nat).                        (* any other Go value *)

(** parser.PacketType, as used in socket/client.go:213-218 and socket/socket.go:536-547. *)
Inductive ptype := CONNECT | DISCONNECT | EVENT | ACK | CONNECT_ERROR | BINARY_EVENT | BINARY_ACK.
#[global] Instance ptype_eq_dec : EqDecision ptype.
Proof. solve_decision. Defined.

(** parser.Packet: Type, Nsp, Data, Id (used in socket/socket.go:286-299). *)
Record packet := Packet {
  p_type : ptype;
  p_nsp  : string;
  p_data : list value;     (* the []any payload; other payloads are wrapped in a singleton *)
  p_id   : option N
}.

(** WriteOptions and BroadcastFlags, socket/adapter-type.go:24-40 (flattened).
    [fl_timeout] is a duration in an arbitrary unit; [None] is the nil pointer. *)
Record flags := Flags {
  fl_volatile : bool;
  fl_compress : bool;
  fl_pre_encoded : bool;
  fl_local : bool;
  fl_broadcast : bool;
  fl_binary : bool;
  fl_timeout : option N;
  fl_single : bool            (* ExpectSingleResponse *)
}.
(** [&BroadcastFlags{}], e.g. socket/broadcast-operator.go:26. *)
Definition no_flags : flags := Flags false false false false false false None false.

#[global] Instance flags_eq_dec : EqDecision flags.
Proof. solve_decision. Defined.

Definition set_compress (b : bool) (f : flags) : flags :=
  Flags (fl_volatile f) b (fl_pre_encoded f) (fl_local f) (fl_broadcast f) (fl_binary f) (fl_timeout f) (fl_single f).
Definition set_volatile (f : flags) : flags :=
  Flags true (fl_compress f) (fl_pre_encoded f) (fl_local f) (fl_broadcast f) (fl_binary f) (fl_timeout f) (fl_single f).
Definition set_local (f : flags) : flags :=
  Flags (fl_volatile f) (fl_compress f) (fl_pre_encoded f) true (fl_broadcast f) (fl_binary f) (fl_timeout f) (fl_single f).
Definition set_timeout (t : N) (f : flags) : flags :=
  Flags (fl_volatile f) (fl_compress f) (fl_pre_encoded f) (fl_local f) (fl_broadcast f) (fl_binary f) (Some t) (fl_single f).

(** BroadcastOptions, socket/adapter-type.go:42-46; [None] is a nil pointer. *)
Record bopts := BOpts {
  bo_rooms  : option (gset room);
  bo_except : option (gset room);
  bo_flags  : option flags
}.

(** SOCKET_RESERVED_EVENTS, socket/socket.go:21. *)
Definition socket_reserved : gset string :=
  {["connect"; "connect_error"; "disconnect"; "disconnecting"; "newListener"; "removeListener"]}.
(** NAMESPACE_RESERVED_EVENTS, socket/namespace.go:15. *)
Definition namespace_reserved : gset string := {["connect"; "connection"; "new_namespace"]}.
(** RECOVERABLE_DISCONNECT_REASONS, socket/socket.go:22. *)
Definition recoverable_reasons : gset string :=
  {["transport error"; "transport close"; "forced close"; "ping timeout"; "server shutting down"; "forced server close"]}.
