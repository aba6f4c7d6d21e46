(** * Model of src/layer/softmax.rs (serialization is in Serial.v) *)
From Verif Require Import Base Arith Helper Tensor FullyConnected.
Local Open Scope string_scope.
Local Open Scope N_scope.

(** softmax.rs:19-25 [struct SoftmaxLayer]. *)
Record sm_layer (F : Type) := mkSM {
  sm_shape : shape;
  sm_name : string;
  sm_intermediate1 : tensor F;
  sm_intermediate2 : tensor F;
  sm_run_state : run_state
}.
Arguments mkSM {F}.
Arguments sm_shape {F} _.
Arguments sm_name {F} _.
Arguments sm_intermediate1 {F} _.
Arguments sm_intermediate2 {F} _.
Arguments sm_run_state {F} _.

Section WithBuild.
Context (bm : build).
Context {F : Type} {AR : Arith F}.
Notation T := (tensor F).
Notation L := (sm_layer F).

(** softmax.rs:34-48 [SoftmaxLayer::empty]. *)
Definition sm_empty : res L :=
  i1 <- tensor_empty bm ;;
  i2 <- tensor_empty bm ;;
  Done (mkSM (mkShape 1 1 1) "Empty softmax layer" i1 i2 Inference).

(** softmax.rs:195-198 [clear_gradients]. *)
Definition sm_clear_gradients (l : L) : L :=
  mkSM (sm_shape l) (sm_name l) (fill_with_value (sm_intermediate1 l) fzero)
       (fill_with_value (sm_intermediate2 l) fzero) (sm_run_state l).

(** softmax.rs:50-66 [update_gradient_and_intermediate_tensors]. *)
Definition sm_update (l : L) : res L :=
  match sm_run_state l with
  | Inference =>
      i1 <- tensor_empty bm ;;
      i2 <- tensor_empty bm ;;
      Done (mkSM (sm_shape l) (sm_name l) i1 i2 (sm_run_state l))
  | Training =>
      i1 <- tensor_new bm (shape_1d 1) ;;
      i2 <- tensor_new bm (sm_shape l) ;;
      Done (sm_clear_gradients (mkSM (sm_shape l) (sm_name l) i1 i2 (sm_run_state l)))
  end.

(** softmax.rs:68-77 [fill_from_state]. *)
Definition sm_fill_from_state (l : L) (s : shape) (name : string) : res (L * result unit) :=
  l' <- sm_update (mkSM s name (sm_intermediate1 l) (sm_intermediate2 l) (sm_run_state l)) ;;
  Done (l', Ok tt).

(** softmax.rs:28-32 [SoftmaxLayer::new]. *)
Definition sm_new (s : shape) (name : string) : res (result L) :=
  l <- sm_empty ;;
  '(l', r) <- sm_fill_from_state l s name ;;
  match r with
  | Ok _ => Done (Ok l')
  | Err e => Done (Err e)
  end.

(** softmax.rs:106-109 [forward]; returns (layer, output, Result). *)
Definition sm_forward (l : L) (input output : T) : res (L * T * result unit) :=
  out <- softmax input output ;;
  Done (l, out, Ok tt).

(** softmax.rs:110-142 [backward]; returns (layer, outgoing_gradient, Result). *)
Definition sm_backward (l : L) (input output incoming outgoing : T) : res (L * T * result unit) :=
  if run_state_eqb (sm_run_state l) Inference then
    Done (l, outgoing, Err "Can only do backprop in training mode")
  else
    '(i1, r) <- matrix_multiply_transpose_first bm output incoming (sm_intermediate1 l) ;;
    match r with
    | Err e =>
        Done (mkSM (sm_shape l) (sm_name l) i1 (sm_intermediate2 l) (sm_run_state l), outgoing, Err e)
    | Ok _ =>
        let i1' := scale_self i1 fmone in
        i2 <- matrix_multiply bm output i1' (sm_intermediate2 l) ;;
        let og := multiply_elementwise output incoming outgoing in
        let og' := add_to_self og i2 in
        Done (mkSM (sm_shape l) (sm_name l) i1' i2 (sm_run_state l), og', Ok tt)
    end.

(** [self.run_state = s] (lines 186, 191). *)
Definition sm_set_run_state (l : L) (s : run_state) : L :=
  mkSM (sm_shape l) (sm_name l) (sm_intermediate1 l) (sm_intermediate2 l) s.

(** softmax.rs:185-188 [switch_to_inference]. *)
Definition sm_switch_to_inference (l : L) : res L := sm_update (sm_set_run_state l Inference).

(** softmax.rs:190-193 [switch_to_training]. *)
Definition sm_switch_to_training (l : L) : res L := sm_update (sm_set_run_state l Training).

End WithBuild.
