(** * Specification vocabulary for layers and networks *)
From Verif Require Import Base Arith Helper Tensor Network Spec.

(** A well-formed tensor of shape [s]. *)
Definition shaped {F} (t : tensor F) (s : shape) : Prop := wf t /\ tshape t = s.

(** What a layer is saved as, apart from its name. *)
Inductive params (F : Type) :=
| PFC (weights bias : tensor F)
| PConv (kernels biases : list (tensor F)) (stride : N) (ins outs : shape)
| PMaxPool (ins mask outs : shape) (stride : N)
| PSoftmax (s : shape).
Arguments PFC {F} _ _.
Arguments PConv {F} _ _ _ _ _.
Arguments PMaxPool {F} _ _ _ _.
Arguments PSoftmax {F} _.

Definition params_of {F} (l : layer F) : params F :=
  match l with
  | LFC l => PFC (fc_weights l) (fc_bias l)
  | LConv l => PConv (cv_kernels l) (cv_biases l) (cv_stride l) (cv_input_shape l) (cv_output_shape l)
  | LMaxPool l => PMaxPool (mp_input_shape l) (mp_mask_shape l) (mp_output_shape l) (mp_stride l)
  | LSoftmax l => PSoftmax (sm_shape l)
  end.

Section Scalars.
Context {F : Type} {AR : Arith F}.
Notation T := (tensor F).

(** The largest value seen so far, starting from negative infinity. *)
Definition running_max (l : list F) : F := fold_left (fun m x => if fgtb x m then x else m) l fninf.

(** [computes bm p X Y]: a layer with parameters [p] maps the tensor [X] to the tensor [Y]. *)
Inductive computes (bm : build) : params F -> T -> T -> Prop :=
| CFC weights bias m n w b X x Y :
    holds bm weights (mkShape m n 1) w -> holds bm bias (mkShape m 1 1) b -> holds bm X (mkShape n 1 1) x ->
    holds bm Y (mkShape m 1 1) (fun i _ _ =>
      relu (fadd (sum (map (fun p => fmul (w i p 0) (x p 0 0)) (upto n))) (b i 0 0))) ->
    computes bm (PFC weights bias) X Y
| CConv kernels biases stride ins outs ks h bv X x Y :
    all_hold bm kernels ks h -> dk outs = len kernels -> dk outs <= len biases ->
    (forall n b, nth_error biases (N.to_nat n) = Some b -> get_item bm b (mkIndex 0 0 0) = Done (bv n)) ->
    (forall ch, ch < dk outs -> conv_ok ins ks stride outs ch) ->
    holds bm X ins x ->
    holds bm Y outs (fun i j k => relu (fadd (sum (window_products ks stride x (h k) i j)) (bv k))) ->
    computes bm (PConv kernels biases stride ins outs) X Y
| CMaxPool ins mask outs stride X x Y :
    pool_ok ins mask stride outs ->
    holds bm X ins x ->
    holds bm Y outs (fun i j k => running_max (window_values (di mask) (dj mask) stride x i j k)) ->
    computes bm (PMaxPool ins mask outs stride) X Y
| CSoftmax s X x Y :
    holds bm X s x ->
    holds bm Y s (fun i j k => fdiv (fexp (x i j k)) (sum (map (fun '(i, j, k) => fexp (x i j k)) (cells s)))) ->
    computes bm (PSoftmax s) X Y.

(** The layers of a network one after the other. *)
Fixpoint composes (bm : build) (ps : list (params F)) (X Y : T) : Prop :=
  match ps with
  | [] => X = Y
  | p :: ps' => exists Z, computes bm p X Z /\ composes bm ps' Z Y
  end.

(** ** Well-formed layers: consistent parameters and, in training mode, buffers of the right shapes. *)
Definition fc_ok (m n : N) (l : fc_layer F) : Prop :=
  shaped (fc_weights l) (mkShape m n 1) /\ shaped (fc_bias l) (mkShape m 1 1)
  /\ (fc_run_state l = Training ->
        shaped (fc_weights_gradients l) (mkShape m n 1) /\ shaped (fc_weights_gradients_intermediate l) (mkShape m n 1)
        /\ shaped (fc_bias_gradients l) (mkShape m 1 1) /\ shaped (fc_relu_mask l) (mkShape m 1 1)).

Definition conv_layer_ok (ks : shape) (l : conv_layer F) : Prop :=
  Forall (fun k => shaped k ks) (cv_kernels l)
  /\ dk (cv_output_shape l) = len (cv_kernels l) /\ len (cv_kernels l) <= len (cv_biases l)
  /\ Forall (fun b => wf b /\ at_most_one (tshape b)) (cv_biases l)
  /\ allocatable (cv_input_shape l) /\ allocatable (cv_output_shape l)
  /\ (forall ch, ch < dk (cv_output_shape l) -> conv_ok (cv_input_shape l) ks (cv_stride l) (cv_output_shape l) ch)
  /\ (cv_run_state l = Training ->
        shaped (cv_relu_mask l) (cv_output_shape l)
        /\ Forall (fun k => shaped k ks) (cv_kernel_gradients l)
        /\ len (cv_kernel_gradients l) = len (cv_kernels l)).

Definition mp_ok (l : mp_layer) : Prop :=
  allocatable (mp_input_shape l) /\ allocatable (mp_output_shape l)
  /\ pool_ok (mp_input_shape l) (mp_mask_shape l) (mp_stride l) (mp_output_shape l)
  /\ (mp_run_state l = Training ->
        len (mp_origin l) = di (mp_output_shape l) * dj (mp_output_shape l) * dk (mp_output_shape l)
        /\ Forall (fun p => p = 0 \/ p < di (mp_input_shape l) * dj (mp_input_shape l) * dk (mp_input_shape l)) (mp_origin l)).

Definition sm_ok (l : sm_layer F) : Prop :=
  allocatable (sm_shape l)
  /\ (sm_run_state l = Training ->
        shaped (sm_intermediate1 l) (mkShape 1 1 1) /\ shaped (sm_intermediate2 l) (sm_shape l)).

Definition layer_ok (l : layer F) : Prop :=
  match l with
  | LFC l => exists m n, fc_ok m n l
  | LConv l => exists ks, allocatable ks /\ conv_layer_ok ks l
  | LMaxPool l => mp_ok l
  | LSoftmax l => sm_ok l
  end.

(** ** Shapes along a network *)
Fixpoint linked (s : shape) (ls : list (layer F)) : Prop :=
  match ls with
  | [] => True
  | l :: ls' => get_input_shape l = s /\ linked (get_output_shape l) ls'
  end.

(** The shapes at the layer boundaries: the first input, then every output. *)
Definition boundaries (ls : list (layer F)) : list shape :=
  match ls with
  | [] => []
  | l :: _ => get_input_shape l :: map get_output_shape ls
  end.

End Scalars.
