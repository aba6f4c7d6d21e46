(** * Specification vocabulary for training a single layer *)
From Verif Require Import Base Arith Helper Tensor Network Spec SpecLayer.

(** One forward/backward pair on input [x] with incoming gradient [g], writing into the buffers [y] and [og]; or a clear. *)
Inductive train_op (F : Type) :=
| TPair (x y g og : tensor F)
| TClear.
Arguments TPair {F} _ _ _ _.
Arguments TClear {F}.

Section Scalars.
Context {F : Type} {AR : Arith F}.

Definition train_step (bm : build) (l : layer F) (op : train_op F) : res (layer F * result unit) :=
  match op with
  | TPair x y g og =>
      '(l1, y', r) <- forward bm l x y ;;
      match r with
      | Err e => Done (l1, Err e)
      | Ok _ => '(l2, og', r2) <- backward bm l1 x y' g og ;; Done (l2, r2)
      end
  | TClear => Done (clear_gradients l, Ok tt)
  end.

(** All steps of a history, stopping at the first [Err]. *)
Definition train_all (bm : build) (l : layer F) (ops : list (train_op F)) : res (layer F * result unit) :=
  tryM ops (fun op l => train_step bm l op) l.

(** 1.0 where the pre-activation is positive, 0.0 elsewhere. *)
Definition gate (z : F) : F := if fgtb z fzero then fone else fzero.

(** The pre-activation of output [i] of a fully connected layer. *)
Definition pre_activation (n : N) (w b x : N -> N -> N -> F) (i : N) : F :=
  fadd (sum (map (fun p => fmul (w i p 0) (x p 0 0)) (upto n))) (b i 0 0).

(** A step of a history on a layer with [n] inputs and [m] outputs: [Some (x, g)] for a pair whose tensors hold [x] and [g],
    [None] for a clear. *)
Notation pair_values := (option ((N -> N -> N -> F) * (N -> N -> N -> F))).

Definition pair_holds (bm : build) (m n : N) (op : train_op F) (p : pair_values) : Prop :=
  match op, p with
  | TPair x y g og, Some (fx, fg) =>
      holds bm x (mkShape n 1 1) fx /\ holds bm g (mkShape m 1 1) fg /\ shaped y (mkShape m 1 1) /\ shaped og (mkShape n 1 1)
  | TClear, None => True
  | _, _ => False
  end.

(** What a history leaves in a gradient that held [v0] and to which a pair (x, g) adds [c x g]. *)
Definition accumulated (c : (N -> N -> N -> F) -> (N -> N -> N -> F) -> F) (v0 : F) (history : list pair_values) : F :=
  fold_left (fun v p => match p with Some (x, g) => fadd v (c x g) | None => fzero end) history v0.

End Scalars.
