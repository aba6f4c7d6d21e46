(** * Model of src/layer/fully_connected.rs (serialization is in Serial.v) *)
From Verif Require Import Base Arith Helper Tensor.
Local Open Scope string_scope.
Local Open Scope N_scope.

(** network.rs:14-18 [enum NetworkRunState]. *)
Inductive run_state := Inference | Training.

(** network.rs:14 [derive(PartialEq)] on NetworkRunState. *)
Definition run_state_eqb (a b : run_state) : bool :=
  match a, b with
  | Inference, Inference | Training, Training => true
  | _, _ => false
  end.

(** fully_connected.rs:16-25 [struct FullyConnectedLayer]. *)
Record fc_layer (F : Type) := mkFC {
  fc_weights : tensor F;
  fc_weights_gradients : tensor F;
  fc_weights_gradients_intermediate : tensor F;
  fc_bias : tensor F;
  fc_bias_gradients : tensor F;
  fc_relu_mask : tensor F;
  fc_name : string;
  fc_run_state : run_state
}.
Arguments mkFC {F}.
Arguments fc_weights {F} _.
Arguments fc_weights_gradients {F} _.
Arguments fc_weights_gradients_intermediate {F} _.
Arguments fc_bias {F} _.
Arguments fc_bias_gradients {F} _.
Arguments fc_relu_mask {F} _.
Arguments fc_name {F} _.
Arguments fc_run_state {F} _.

Section WithBuild.
Context (bm : build).
Context {F : Type} {AR : Arith F}.
Notation T := (tensor F).
Notation L := (fc_layer F).

(** fully_connected.rs:238-243 [clear_gradients]. *)
Definition fc_clear_gradients (l : L) : L :=
  mkFC (fc_weights l)
       (fill_with_value (fc_weights_gradients l) fzero)
       (fill_with_value (fc_weights_gradients_intermediate l) fzero)
       (fc_bias l)
       (fill_with_value (fc_bias_gradients l) fzero)
       (fill_with_value (fc_relu_mask l) fzero)
       (fc_name l) (fc_run_state l).

(** fully_connected.rs:204-206 [get_output_shape]. *)
Definition fc_output_shape (l : L) : shape := get_shape (fc_bias l).

(** fully_connected.rs:208-214 [get_input_shape]. *)
Definition fc_input_shape (l : L) : shape := mkShape (dj (get_shape (fc_weights l))) 1 1.

(** fully_connected.rs:28-47 [update_gradient_and_intermediate_tensors]. *)
Definition fc_update (l : L) : res L :=
  match fc_run_state l with
  | Inference =>
      wg <- tensor_empty bm ;;
      wgi <- tensor_empty bm ;;
      bg <- tensor_empty bm ;;
      rm <- tensor_empty bm ;;
      Done (mkFC (fc_weights l) wg wgi (fc_bias l) bg rm (fc_name l) (fc_run_state l))
  | Training =>
      wg <- tensor_new bm (get_shape (fc_weights l)) ;;
      wgi <- tensor_new bm (get_shape (fc_weights l)) ;;
      bg <- tensor_new bm (get_shape (fc_bias l)) ;;
      rm <- tensor_new bm (fc_output_shape l) ;;
      Done (fc_clear_gradients
              (mkFC (fc_weights l) wg wgi (fc_bias l) bg rm (fc_name l) (fc_run_state l)))
  end.

(** fully_connected.rs:61-75 [FullyConnectedLayer::empty]. *)
Definition fc_empty : res L :=
  w <- tensor_empty bm ;;
  b <- tensor_empty bm ;;
  wg <- tensor_empty bm ;;
  wgi <- tensor_empty bm ;;
  bg <- tensor_empty bm ;;
  rm <- tensor_empty bm ;;
  Done (mkFC w wg wgi b bg rm "Empty fully connected layer" Inference).

(** fully_connected.rs:77-103 [fill_from_state]. *)
Definition fc_fill_from_state (l : L) (weights bias : T) (name : string) : res (L * result unit) :=
  let ws := get_shape weights in
  let bs := get_shape bias in
  if negb (dk ws =? dk bs) then Done (l, Err "Third dimension of bias and weights don't match")
  else if negb (di ws =? di bs) then Done (l, Err "First dimension of bias and weight don't match")
  else if negb (dj bs =? 1) then Done (l, Err "The second dimension of bias must be 1")
  else
    l' <- fc_update
            (mkFC weights (fc_weights_gradients l) (fc_weights_gradients_intermediate l)
                  bias (fc_bias_gradients l) (fc_relu_mask l) name (fc_run_state l)) ;;
    Done (l', Ok tt).

(** fully_connected.rs:49-59 [FullyConnectedLayer::new]. *)
Definition fc_new (input_size output_size : N) (name : string) : res L :=
  fcl <- fc_empty ;;
  weights <- tensor_new bm (shape_new output_size input_size 1) ;;
  bias <- tensor_new bm (mkShape output_size 1 1) ;;
  '(fcl', r) <- fc_fill_from_state fcl weights bias name ;;
  match r with
  | Ok _ => Done fcl'
  | Err _ => Panic PUnwrap
  end.

(** fully_connected.rs:105-107 [fill_weights_with_value]. *)
Definition fc_fill_weights (l : L) (v : F) : L :=
  mkFC (fill_with_value (fc_weights l) v) (fc_weights_gradients l)
       (fc_weights_gradients_intermediate l) (fc_bias l) (fc_bias_gradients l) (fc_relu_mask l)
       (fc_name l) (fc_run_state l).

(** fully_connected.rs:109-111 [fill_bias_with_value]. *)
Definition fc_fill_bias (l : L) (v : F) : L :=
  mkFC (fc_weights l) (fc_weights_gradients l)
       (fc_weights_gradients_intermediate l) (fill_with_value (fc_bias l) v) (fc_bias_gradients l)
       (fc_relu_mask l) (fc_name l) (fc_run_state l).

(** fully_connected.rs:149-167 [forward]; returns (layer, output, Result). *)
Definition fc_forward (l : L) (input output : T) : res (L * T * result unit) :=
  match fc_run_state l with
  | Inference =>
      out <- matrix_multiply_add_relu bm input (fc_weights l) (fc_bias l) output ;;
      Done (l, out, Ok tt)
  | Training =>
      out1 <- matrix_multiply bm (fc_weights l) input output ;;
      let out2 := add_to_self out1 (fc_bias l) in
      let '(out3, mask, r) := relu_self_and_store_mask out2 (fc_relu_mask l) in
      Done (mkFC (fc_weights l) (fc_weights_gradients l) (fc_weights_gradients_intermediate l)
                 (fc_bias l) (fc_bias_gradients l) mask (fc_name l) (fc_run_state l),
            out3, r)
  end.

(** fully_connected.rs:169-202 [backward]; returns (layer, outgoing_gradient, Result). *)
Definition fc_backward (l : L) (input output incoming outgoing : T) : res (L * T * result unit) :=
  if run_state_eqb (fc_run_state l) Training then
    let mask := multiply_elementwise_self (fc_relu_mask l) incoming in
    let bg := add_to_self (fc_bias_gradients l) mask in
    '(wgi, r) <- matrix_multiply_transpose_second bm mask input
                   (fc_weights_gradients_intermediate l) ;;
    match r with
    | Err e =>
        Done (mkFC (fc_weights l) (fc_weights_gradients l) wgi (fc_bias l) bg mask
                   (fc_name l) (fc_run_state l), outgoing, Err e)
    | Ok _ =>
        let wg := add_to_self (fc_weights_gradients l) wgi in
        '(og, r2) <- matrix_multiply_transpose_first bm (fc_weights l) mask outgoing ;;
        Done (mkFC (fc_weights l) wg wgi (fc_bias l) bg mask (fc_name l) (fc_run_state l), og, r2)
    end
  else Done (l, outgoing, Err "Can only do backprop in training mode").

(** [self.run_state = s] (lines 226, 233). *)
Definition fc_set_run_state (l : L) (s : run_state) : L :=
  mkFC (fc_weights l) (fc_weights_gradients l) (fc_weights_gradients_intermediate l)
       (fc_bias l) (fc_bias_gradients l) (fc_relu_mask l) (fc_name l) s.

(** fully_connected.rs:224-229 [switch_to_inference]. *)
Definition fc_switch_to_inference (l : L) : res L := fc_update (fc_set_run_state l Inference).

(** fully_connected.rs:231-236 [switch_to_training]. *)
Definition fc_switch_to_training (l : L) : res L := fc_update (fc_set_run_state l Training).

End WithBuild.
