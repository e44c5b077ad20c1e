(** Vocabulary for broadcasts with acknowledgement. *)
From Verif Require Import Base GoTypes BcastAck.

Definition counts_of (es : list bevent) : list nat := omap (λ e, match e with EbCount n => Some n | _ => None end) es.
Definition replies_of (es : list bevent) : list (list value) := omap (λ e, match e with EbReply a => Some a | _ => None end) es.
(** The broadcast was issued, every one of the [sc] servers reported its number of clients and
    that many replies were received. *)
Definition complete (sc : nat) (es : list bevent) : Prop :=
  EbFinish ∈ es ∧ length (counts_of es) = sc ∧ length (replies_of es) = sum_list (counts_of es).
#[global] Instance bevent_fin_dec (es : list bevent) : Decision (EbFinish ∈ es).
Proof.
  induction es as [|e es [IH|IH]].
  - right. intros H. by apply elem_of_nil in H.
  - left. by right.
  - destruct e; try (right; intros [H|H]%elem_of_cons; [done|by apply IH]). left. by left.
Defined.
#[global] Instance complete_dec sc es : Decision (complete sc es).
Proof. unfold complete. apply _. Defined.

(** What should happen: scanning the history, the first expiry of the timer gives an error with
    the replies so far, the first complete prefix gives all replies. *)
Inductive outcome := OutOk (l : list value) | OutErr (l : list value).
Fixpoint first_outcome (sc : nat) (past todo : list bevent) : option outcome :=
  match todo with
  | [] => None
  | e :: todo =>
      match e with
      | EbTimer => Some (OutErr (concat (replies_of past)))
      | _ => if decide (complete sc (past ++ [e])) then Some (OutOk (concat (replies_of (past ++ [e]))))
             else first_outcome sc (past ++ [e]) todo
      end
  end.
Definition outcome_call (single : bool) (o : outcome) : bcall :=
  match o with
  | OutOk l => if single then match l with VArr l' :: _ => BOk l' | _ => BPanic end else BOk l
  | OutErr l => if single then BErr [] else BErr l
  end.
(** Every reply has exactly one argument. *)
Definition one_arg (es : list bevent) : Prop := ∀ a, a ∈ replies_of es → length a = 1.

(** *** Schedules *)
Definition lcounts (ls : list blabel) : list nat := omap (λ l, match l with LbCount n => Some n | _ => None end) ls.
Definition lreplies (ls : list blabel) : list (list value) := omap (λ l, match l with LbReply a => Some a | _ => None end) ls.
Definition bquiet (s : bst) : Prop := b_armed s = false ∧ ∀ t x, b_thr s !! t = Some x → x = None.
Definition n_finish (es : list bevent) : nat := length (omap (λ e, match e with EbFinish => Some () | _ => None end) es).
(** Calls with the timeout error. *)
Definition is_err (c : bcall) : nat := match c with BErr _ => 1 | _ => 0 end.
