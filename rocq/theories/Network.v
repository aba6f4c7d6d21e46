(** * Model of src/layer.rs (trait Layer) and src/network.rs (file input/output is in Serial.v) *)
From Verif Require Import Base Arith Helper Tensor Convolution.
From Verif Require Export FullyConnected Convolutional MaxPool Softmax.
Local Open Scope string_scope.
Local Open Scope N_scope.

(** layer.rs:52-75 [trait Layer]. [Box<dyn Layer>] is the closed sum of the four implementations in the
    crate; implementations outside the crate are not modelled. *)
Inductive layer (F : Type) :=
| LConv (l : conv_layer F)
| LFC (l : fc_layer F)
| LMaxPool (l : mp_layer)
| LSoftmax (l : sm_layer F).
Arguments LConv {F} _.
Arguments LFC {F} _.
Arguments LMaxPool {F} _.
Arguments LSoftmax {F} _.

(** network.rs:59-66 [struct Network]. *)
Record network (F : Type) := mkNet {
  layers : list (layer F);
  intermediate_states : list (tensor F);
  intermediate_gradients : list (tensor F);
  net_input_shape : shape;
  net_output_shape : shape;
  net_run_state : run_state
}.
Arguments mkNet {F}.
Arguments layers {F} _.
Arguments intermediate_states {F} _.
Arguments intermediate_gradients {F} _.
Arguments net_input_shape {F} _.
Arguments net_output_shape {F} _.
Arguments net_run_state {F} _.

Section WithBuild.
Context (bm : build).
Context {F : Type} {AR : Arith F}.
Notation T := (tensor F).
Notation L := (layer F).
Notation NW := (network F).

(** Attach a result of a concrete layer to the sum type. *)
Definition lift3 {X} (c : X -> L) (r : res (X * T * result unit)) : res (L * T * result unit) :=
  '(l, t, e) <- r ;; Done (c l, t, e).
Definition lift1 {X} (c : X -> L) (r : res X) : res L := l <- r ;; Done (c l).

(** [Layer::forward] dispatch: convolutional.rs:196, fully_connected.rs:149, max_pool.rs:149, softmax.rs:106. *)
Definition forward (l : L) (input output : T) : res (L * T * result unit) :=
  match l with
  | LConv l => lift3 LConv (cv_forward bm l input output)
  | LFC l => lift3 LFC (fc_forward bm l input output)
  | LMaxPool l => lift3 LMaxPool (mp_forward bm l input output)
  | LSoftmax l => lift3 LSoftmax (sm_forward l input output)
  end.

(** [Layer::backward] dispatch: convolutional.rs:229, fully_connected.rs:169, max_pool.rs:167, softmax.rs:110. *)
Definition backward (l : L) (input output incoming outgoing : T) : res (L * T * result unit) :=
  match l with
  | LConv l => lift3 LConv (cv_backward bm l input output incoming outgoing)
  | LFC l => lift3 LFC (fc_backward bm l input output incoming outgoing)
  | LMaxPool l => lift3 LMaxPool (mp_backward bm l input output incoming outgoing)
  | LSoftmax l => lift3 LSoftmax (sm_backward bm l input output incoming outgoing)
  end.

(** [Layer::clear_gradients] dispatch: convolutional.rs:280, fully_connected.rs:238, max_pool.rs:227,
    softmax.rs:195. *)
Definition clear_gradients (l : L) : L :=
  match l with
  | LConv l => LConv (cv_clear_gradients l)
  | LFC l => LFC (fc_clear_gradients l)
  | LMaxPool l => LMaxPool (mp_clear_gradients l)
  | LSoftmax l => LSoftmax (sm_clear_gradients l)
  end.

(** layer.rs:62 [Layer::apply_gradients]: the default body is empty and no layer overrides it. *)
Definition apply_gradients (l : L) : L := l.

(** [Layer::switch_to_training] dispatch. *)
Definition switch_to_training (l : L) : res L :=
  match l with
  | LConv l => lift1 LConv (cv_switch_to_training bm l)
  | LFC l => lift1 LFC (fc_switch_to_training bm l)
  | LMaxPool l => lift1 LMaxPool (mp_switch_to_training bm l)
  | LSoftmax l => lift1 LSoftmax (sm_switch_to_training bm l)
  end.

(** [Layer::switch_to_inference] dispatch. *)
Definition switch_to_inference (l : L) : res L :=
  match l with
  | LConv l => lift1 LConv (cv_switch_to_inference bm l)
  | LFC l => lift1 LFC (fc_switch_to_inference bm l)
  | LMaxPool l => lift1 LMaxPool (mp_switch_to_inference bm l)
  | LSoftmax l => lift1 LSoftmax (sm_switch_to_inference bm l)
  end.

(** [Layer::get_run_mode]: convolutional.rs:276, fully_connected.rs:220, max_pool.rs:191, softmax.rs:154. *)
Definition get_run_mode (l : L) : run_state :=
  match l with
  | LConv l => cv_run_state l
  | LFC l => fc_run_state l
  | LMaxPool l => mp_run_state l
  | LSoftmax l => sm_run_state l
  end.

(** [Layer::get_input_shape]: convolutional.rs:269, fully_connected.rs:208, max_pool.rs:184, softmax.rs:147. *)
Definition get_input_shape (l : L) : shape :=
  match l with
  | LConv l => cv_input_shape l
  | LFC l => fc_input_shape l
  | LMaxPool l => mp_input_shape l
  | LSoftmax l => sm_shape l
  end.

(** [Layer::get_output_shape]: convolutional.rs:265, fully_connected.rs:204, max_pool.rs:180, softmax.rs:143. *)
Definition get_output_shape (l : L) : shape :=
  match l with
  | LConv l => cv_output_shape l
  | LFC l => fc_output_shape l
  | LMaxPool l => mp_output_shape l
  | LSoftmax l => sm_shape l
  end.

(** [Layer::get_name]: convolutional.rs:273, fully_connected.rs:216, max_pool.rs:188, softmax.rs:151. *)
Definition get_name (l : L) : string :=
  match l with
  | LConv l => cv_name l
  | LFC l => fc_name l
  | LMaxPool l => mp_name l
  | LSoftmax l => sm_name l
  end.

(** network.rs:70-87 [Network::new]. *)
Definition network_new (s : run_state) : NW :=
  mkNet [] [] [] (mkShape 0 0 0) (mkShape 0 0 0) s.

(** network.rs:102-159 [Network::add_layer]. *)
Definition add_layer (n : NW) (l : L) : res (NW * result unit) :=
  l' <- match net_run_state n with
        | Inference => switch_to_inference l
        | Training => switch_to_training l
        end ;;
  match rev (layers n) with
  | [] =>
      let ins := get_input_shape l' in
      let outs := get_output_shape l' in
      s0 <- tensor_new bm ins ;;
      s1 <- tensor_new bm outs ;;
      g <- (if run_state_eqb (net_run_state n) Training then
              g0 <- tensor_new bm ins ;;
              g1 <- tensor_new bm outs ;;
              Done (intermediate_gradients n ++ [g0; g1])%list
            else Done (intermediate_gradients n)) ;;
      Done (mkNet (layers n ++ [l'])%list (intermediate_states n ++ [s0; s1])%list g ins outs
                  (net_run_state n), Ok tt)
  | last :: _ =>
      if negb (shape_eqb (get_output_shape last) (get_input_shape l')) then
        Done (n, Err "Last output and new input shapes don't match")
      else
        let outs := get_output_shape l' in
        s1 <- tensor_new bm outs ;;
        g <- (if run_state_eqb (net_run_state n) Training then
                g1 <- tensor_new bm outs ;;
                Done (intermediate_gradients n ++ [g1])%list
              else Done (intermediate_gradients n)) ;;
        Done (mkNet (layers n ++ [l'])%list (intermediate_states n ++ [s1])%list g
                    (net_input_shape n) outs (net_run_state n), Ok tt)
  end.

(** network.rs:172-177 [Network::get_intermediate_state]. *)
Definition get_intermediate_state (n : NW) (id : N) : res (result T) :=
  if len (intermediate_states n) <=? id then
    Done (Err "Trying to access an intermediate state that does not exist")
  else t <- vget (intermediate_states n) id ;; Done (Ok t).

(** network.rs:183-185 [Network::get_run_state]. *)
Definition get_run_state (n : NW) : run_state := net_run_state n.

(** Loop over all layers replacing each one: [for layer in self.layers.iter_mut()]. *)
Definition map_layers (f : L -> res L) (ls : list L) : res (list L) :=
  forM ls (fun l acc => l' <- f l ;; Done (acc ++ [l'])%list) [].

(** network.rs:186-196 [Network::switch_to_training]. *)
Definition net_switch_to_training (n : NW) : res NW :=
  ls <- map_layers switch_to_training (layers n) ;;
  g <- forM (intermediate_states n) (fun s acc =>
         t <- tensor_new bm (get_shape s) ;; Done (acc ++ [t])%list) [] ;;
  Done (mkNet ls (intermediate_states n) g (net_input_shape n) (net_output_shape n) Training).

(** network.rs:197-204 [Network::switch_to_inference]. Line 198 really sets [Training]. *)
Definition net_switch_to_inference (n : NW) : res NW :=
  ls <- map_layers switch_to_inference (layers n) ;;
  Done (mkNet ls (intermediate_states n) [] (net_input_shape n) (net_output_shape n) Training).

(** [split_at_mut(i + 1)] followed by [last().unwrap()] / [first_mut().unwrap()] on the halves
    (network.rs:225-232, 267-274): elements [i] and [i + 1]; a slice that is too short panics. *)
Definition get_or_unwrap {A} (l : list A) (i : N) : res A :=
  match vget l i with Done x => Done x | Panic _ => Panic PUnwrap end.

(** network.rs:222-236, the loop over layers of [infer]; the state is (layers, intermediate_states). *)
Definition infer_step (i : N) (s : list L * list T) : res ((list L * list T) * result unit) :=
  let '(ls, states) := s in
  l <- vget ls i ;;
  input <- get_or_unwrap states i ;;
  output <- get_or_unwrap states (i + 1) ;;
  '(l', output', r) <- forward l input output ;;
  ls' <- vset ls i l' ;;
  states' <- vset states (i + 1) output' ;;
  Done ((ls', states'), r).

(** network.rs:206-239 [Network::infer]. *)
Definition infer (n : NW) (input : T) : res (NW * result unit) :=
  if negb (shape_eqb (get_shape input) (net_input_shape n)) then
    Done (n, Err "Input shape not as expected")
  else if len (intermediate_states n) <? 2 then
    Done (n, Err "Network does not contain any layers")
  else
    states <- vset (intermediate_states n) 0 input ;;
    '((ls, states'), r) <- tryM (Nrange 0 (len (layers n))) infer_step (layers n, states) ;;
    Done (mkNet ls states' (intermediate_gradients n) (net_input_shape n) (net_output_shape n)
                (net_run_state n), r).

(** network.rs:264-280, the reversed loop over layers of [backward]; the state is
    (layers, intermediate_gradients). *)
Definition backward_step (states : list T) (i : N) (s : list L * list T)
  : res ((list L * list T) * result unit) :=
  let '(ls, grads) := s in
  l <- vget ls i ;;
  incoming <- get_or_unwrap grads (i + 1) ;;
  outgoing <- get_or_unwrap grads i ;;
  input <- vget states i ;;
  output <- vget states (i + 1) ;;
  '(l', outgoing', r) <- backward l input output incoming outgoing ;;
  ls' <- vset ls i l' ;;
  grads' <- vset grads i outgoing' ;;
  Done ((ls', grads'), r).

(** network.rs:241-283 [Network::backward]. *)
Definition net_backward (n : NW) (g : T) : res (NW * result unit) :=
  if negb (shape_eqb (get_shape g) (net_output_shape n)) then
    Done (n, Err "Incoming loss gradient shape not as expected")
  else if len (layers n) <? 1 then
    Done (n, Err "Network does not contain any layers")
  else if negb (run_state_eqb (net_run_state n) Training) then
    Done (n, Err "Can only propagate backwards in training mode")
  else
    grads <- vset (intermediate_gradients n) (len (layers n)) g ;;
    '((ls, grads'), r) <- tryM (rev (Nrange 0 (len (layers n))))
                            (backward_step (intermediate_states n)) (layers n, grads) ;;
    Done (mkNet ls (intermediate_states n) grads' (net_input_shape n) (net_output_shape n)
                (net_run_state n), r).

(** network.rs:285-290 [Network::get_output]. *)
Definition get_output (n : NW) : res (result T) :=
  if len (intermediate_states n) <? 2 then Done (Err "Network does not contain an output")
  else match rev (intermediate_states n) with
       | t :: _ => Done (Ok t)
       | [] => Panic PUnwrap
       end.

End WithBuild.
