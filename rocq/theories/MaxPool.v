(** * Model of src/layer/max_pool.rs (serialization is in Serial.v) *)
From Verif Require Import Base Arith Helper Tensor FullyConnected.
Local Open Scope string_scope.
Local Open Scope N_scope.

(** max_pool.rs:16-24 [struct MaxPoolLayer]. *)
Record mp_layer := mkMP {
  mp_input_shape : shape;
  mp_mask_shape : shape;
  mp_output_shape : shape;
  mp_stride : N;
  mp_name : string;
  mp_run_state : run_state;
  mp_origin : list N
}.

Section WithBuild.
Context (bm : build).
Context {F : Type} {AR : Arith F}.
Notation T := (tensor F).

(** max_pool.rs:39-62 [MaxPoolLayer::empty]. *)
Definition mp_empty : mp_layer :=
  mkMP (mkShape 1 1 1) (mkShape 1 1 1) (mkShape 1 1 1) 1 "Empty max pool layer" Inference [].

(** max_pool.rs:227-231 [clear_gradients]. *)
Definition mp_clear_gradients (l : mp_layer) : mp_layer :=
  mkMP (mp_input_shape l) (mp_mask_shape l) (mp_output_shape l) (mp_stride l) (mp_name l)
       (mp_run_state l) (map (fun _ => 0) (mp_origin l)).

(** max_pool.rs:64-77 [update_gradient_and_intermediate_tensors]. *)
Definition mp_update (l : mp_layer) : res mp_layer :=
  match mp_run_state l with
  | Inference =>
      Done (mkMP (mp_input_shape l) (mp_mask_shape l) (mp_output_shape l) (mp_stride l) (mp_name l)
                 (mp_run_state l) [])
  | Training =>
      n <- total_size bm (mp_output_shape l) ;;
      Done (mp_clear_gradients
              (mkMP (mp_input_shape l) (mp_mask_shape l) (mp_output_shape l) (mp_stride l)
                    (mp_name l) (mp_run_state l) (repeat 0 (N.to_nat n))))
  end.

(** max_pool.rs:79-104 [fill_from_state]. *)
Definition mp_fill_from_state (l : mp_layer) (input_shape mask_shape : shape) (stride : N)
    (name : string) : res (mp_layer * result unit) :=
  fits <- does_kernel_stride_fit_image bm input_shape mask_shape stride ;;
  if negb fits then Done (l, Err "Mask does not fit in image with given stride")
  else
    '(dim0, dim1) <- get_convolution_dim_fit bm input_shape mask_shape stride ;;
    Done (mkMP input_shape mask_shape (mkShape dim0 dim1 (dk input_shape)) stride name
               (mp_run_state l) (mp_origin l), Ok tt).

(** max_pool.rs:27-38 [MaxPoolLayer::new]. *)
Definition mp_new (mask_shape input_shape : shape) (stride : N) (name : string)
  : res (result mp_layer) :=
  '(l, r) <- mp_fill_from_state mp_empty input_shape mask_shape stride name ;;
  match r with
  | Ok _ => Done (Ok l)
  | Err msg => Done (Err msg)
  end.

(** [self.max_pool_origin = o]. *)
Definition mp_set_origin (l : mp_layer) (o : list N) : mp_layer :=
  mkMP (mp_input_shape l) (mp_mask_shape l) (mp_output_shape l) (mp_stride l) (mp_name l)
       (mp_run_state l) o.

(** max_pool.rs:149-165 [forward]; returns (layer, output, Result). *)
Definition mp_forward (l : mp_layer) (input output : T) : res (mp_layer * T * result unit) :=
  match mp_run_state l with
  | Inference =>
      out <- max_pool bm input (mp_mask_shape l) (mp_stride l) output ;;
      Done (l, out, Ok tt)
  | Training =>
      '(out, o, r) <- max_pool_track_origin bm input (mp_mask_shape l) (mp_stride l) output
                        (mp_origin l) ;;
      Done (mp_set_origin l o, out, r)
  end.

(** max_pool.rs:167-179 [backward]; returns (layer, outgoing_gradient, Result). *)
Definition mp_backward (l : mp_layer) (input output incoming outgoing : T)
  : res (mp_layer * T * result unit) :=
  let og := fill_with_value outgoing fzero in
  '(og', r) <- add_from_index_list bm incoming og (mp_origin l) ;;
  Done (l, og', r).

(** [self.run_state = s] (lines 235, 242). *)
Definition mp_set_run_state (l : mp_layer) (s : run_state) : mp_layer :=
  mkMP (mp_input_shape l) (mp_mask_shape l) (mp_output_shape l) (mp_stride l) (mp_name l) s
       (mp_origin l).

(** max_pool.rs:233-238 [switch_to_inference]. *)
Definition mp_switch_to_inference (l : mp_layer) : res mp_layer :=
  mp_update (mp_set_run_state l Inference).

(** max_pool.rs:240-245 [switch_to_training]. *)
Definition mp_switch_to_training (l : mp_layer) : res mp_layer :=
  mp_update (mp_set_run_state l Training).

End WithBuild.
