(** * C24, C26 - C30, C46, C47: single layers *)
From Verif Require Import Base Arith Helper Tensor Convolution Network Float32 Spec SpecLayer SpecTrain.
From Verif Require Import ProofsFloat ProofsLayer LayerFacts Demo DemoNet DemoTrain.
Local Open Scope string_scope.
Local Open Scope N_scope.

(** ** C24 *)
Theorem C24_forward : forall e bm (l : fc_layer f32) m n w b x X Y0,
  let AR := f32_arith e in
  fc_ok m n l -> holds bm (fc_weights l) (mkShape m n 1) w -> holds bm (fc_bias l) (mkShape m 1 1) b ->
  holds bm X (mkShape n 1 1) x -> shaped Y0 (mkShape m 1 1) ->
  exists l' Y, fc_forward bm l X Y0 = Done (l', Y, Ok tt)
    /\ holds bm Y (mkShape m 1 1) (fun i _ _ => relu (fadd (sum (map (fun p => fmul (w i p 0) (x p 0 0)) (upto n))) (b i 0 0))).
Proof. exact (fun e bm l m n w b x X Y0 => @fc_forward_holds f32 (f32_arith e) bm l m n w b x X Y0 (f32_relu_agrees e)). Qed.
Print Assumptions C24_forward.

Theorem C24_same_in_both_modes : forall e bm (l1 l2 : fc_layer f32) m n X Y1 Y2,
  fc_ok m n l1 -> fc_ok m n l2 -> fc_weights l1 = fc_weights l2 -> fc_bias l1 = fc_bias l2 ->
  shaped X (mkShape n 1 1) -> shaped Y1 (mkShape m 1 1) -> shaped Y2 (mkShape m 1 1) ->
  exists l1' l2' Y, @fc_forward bm f32 (f32_arith e) l1 X Y1 = Done (l1', Y, Ok tt)
    /\ @fc_forward bm f32 (f32_arith e) l2 X Y2 = Done (l2', Y, Ok tt).
Proof. exact fc_any_mode. Qed.
Print Assumptions C24_same_in_both_modes.

(** Every accepted pair of weights and bias gives such a layer, in whatever mode it is, and so does a change of mode. *)
Theorem C24_accepted : forall F (AR : Arith F) bm (l0 l : fc_layer F) weights bias name m n,
  shaped weights (mkShape m n 1) -> wf bias -> fc_fill_from_state bm l0 weights bias name = Done (l, Ok tt) ->
  fc_ok m n l /\ fc_weights l = weights /\ fc_bias l = bias /\ fc_name l = name /\ fc_run_state l = fc_run_state l0.
Proof. exact @fc_fill_ok. Qed.
Print Assumptions C24_accepted.

Theorem C24_switched : forall F (AR : Arith F) bm (l : fc_layer F) m n, fc_ok m n l ->
  (exists l', fc_switch_to_training bm l = Done l' /\ fc_ok m n l' /\ fc_weights l' = fc_weights l /\ fc_bias l' = fc_bias l
     /\ fc_name l' = fc_name l /\ fc_run_state l' = Training)
  /\ (exists l', fc_switch_to_inference bm l = Done l' /\ fc_ok m n l' /\ fc_weights l' = fc_weights l /\ fc_bias l' = fc_bias l
     /\ fc_name l' = fc_name l /\ fc_run_state l' = Inference).
Proof. exact (fun F AR bm l m n H => conj (@fc_switch_ok F AR bm Training l m n H) (@fc_switch_ok F AR bm Inference l m n H)). Qed.
Print Assumptions C24_switched.

Example C24_case :
  fc_ok 1 2 t_fc /\ fc_run_state t_fc = Training
  /\ outs (fc_forward Debug t_fc (tn (mkShape 2 1 1) [4;5]%Z) (tn (mkShape 1 1 1) [77]%Z)) = Some (ints [22]%Z)
  /\ outs (fc_forward Debug (fc_set_run_state t_fc Inference) (tn (mkShape 2 1 1) [4;5]%Z) (tn (mkShape 1 1 1) [-3]%Z)) = Some (ints [22]%Z)
  /\ outs (fc_forward Debug t_fc (tn (mkShape 2 1 1) [-4;1]%Z) (tn (mkShape 1 1 1) [77]%Z)) = Some (ints [0]%Z).
Proof. split; [exact t_fc_ok|]. split; [reflexivity|]. repeat split; vm_compute; reflexivity. Qed.

(** ** C26 *)
(** Fully connected layers: the stored gradients after any history are the sum, in the order of the history, of the contributions of
    the pairs since the last clear. *)
Theorem C26_fully_connected_partial : forall F (AR : Arith F) bm m n (ops : list (train_op F)) hist (l : fc_layer F) w b wg bg,
  fc_ok m n l -> fc_run_state l = Training ->
  holds bm (fc_weights l) (mkShape m n 1) w -> holds bm (fc_bias l) (mkShape m 1 1) b ->
  holds bm (fc_weights_gradients l) (mkShape m n 1) wg -> holds bm (fc_bias_gradients l) (mkShape m 1 1) bg ->
  Forall2 (pair_holds bm m n) ops hist ->
  exists l', train_all bm (LFC l) ops = Done (LFC l', Ok tt) /\ fc_weights l' = fc_weights l /\ fc_bias l' = fc_bias l
    /\ holds bm (fc_weights_gradients l') (mkShape m n 1) (fun i j _ =>
         accumulated (fun x g => fadd fzero (fmul (fmul (gate (pre_activation n w b x i)) (g i 0 0)) (x j 0 0))) (wg i j 0) hist)
    /\ holds bm (fc_bias_gradients l') (mkShape m 1 1) (fun i _ _ =>
         accumulated (fun x g => fmul (gate (pre_activation n w b x i)) (g i 0 0)) (bg i 0 0) hist).
Proof. exact @fc_accumulates. Qed.
Print Assumptions C26_fully_connected_partial.

Example C26_case : fc_ok 1 2 t_fc /\ (exists hist, Forall2 (pair_holds Debug 1 2) t_history hist)
  /\ fc_grads (train_all Debug (LFC t_fc) t_history) = Some (ints [43;-14]%Z, ints [13]%Z).
Proof.
  split; [exact t_fc_ok|]. split; [|vm_compute; reflexivity].
  exists (map (fun op => match op with TPair x _ g _ => Some (at_ x, at_ g) | TClear => None end) t_history).
  repeat (constructor; [first [exact I|split; [demo_hold|split; [demo_hold|split; (split; [demo_wf|reflexivity])]]]|]). constructor.
Qed.

(** Convolutional layers overwrite: whatever the kernel gradients were, backward leaves this pair's contribution alone. The bias
    gradients are never touched. *)
Theorem C26_convolutional_last_pair_partial : forall F (AR : Arith F) bm ks (l l' : conv_layer F) x gf X Y g og og' r,
  conv_layer_ok ks l -> cv_run_state l = Training -> holds bm X (cv_input_shape l) x -> holds bm g (cv_output_shape l) gf ->
  cv_backward bm l X Y g og = Done (l', og', r) ->
  len (cv_kernel_gradients l') = len (cv_kernels l)
  /\ all_hold bm (cv_kernel_gradients l') ks (fun _ a b c =>
       sum (map (fun '(i, j, k) => fmul (x (a + i * cv_stride l) (b + j * cv_stride l) c) (gf i j k)) (cells (cv_output_shape l))))
  /\ cv_bias_gradients l' = cv_bias_gradients l
  /\ convolution_backprop_outgoing_gradient bm g (cv_kernels l) (cv_stride l) og = Done (og', r).
Proof. exact @conv_backward_exact. Qed.
Print Assumptions C26_convolutional_last_pair_partial.

Theorem C26_convolutional_clear_partial : forall F (AR : Arith F) bm ks (l : conv_layer F),
  Forall (fun k => shaped k ks) (cv_kernel_gradients l) ->
  all_hold bm (cv_kernel_gradients (cv_clear_gradients l)) ks (fun _ _ _ _ => fzero).
Proof. exact @cv_clear_zero. Qed.
Print Assumptions C26_convolutional_clear_partial.

(** Gradient 3 on image -2, then 7 on image -5: the kernel gradient should be -6 - 35 = -41 and the bias gradient 10. *)
Theorem C26_convolutional_refuted :
  let pair x g := TPair (tn (mkShape 1 1 1) [x]) t_y (tn (mkShape 1 1 1) [g]) t_y in
  conv_layer_ok (mkShape 1 1 1) t_cv /\ cv_run_state t_cv = Training
  /\ cv_grads (train_all Debug (LConv t_cv) [pair (-2) 3; pair (-5) 7]%Z) = Some ([ints [-35]%Z], [ints [0]%Z]).
Proof. split; [exact t_cv_ok|]. split; [reflexivity|]. vm_compute; reflexivity. Qed.
Print Assumptions C26_convolutional_refuted.

(** ** C27 *)
Theorem C27_all_but_fully_connected_partial : forall F (AR : Arith F) bm (l : layer F) X Y g og og' og1 l1,
  layer_ok l -> get_run_mode l = Training -> match l with LFC _ => False | _ => True end ->
  shaped X (get_input_shape l) -> shaped Y (get_output_shape l) -> shaped g (get_output_shape l) ->
  shaped og (get_input_shape l) -> shaped og' (get_input_shape l) ->
  backward bm l X Y g og = Done (l1, og1, Ok tt) -> exists l2, backward bm l1 X Y g og' = Done (l2, og1, Ok tt).
Proof. exact @backward_twice. Qed.
Print Assumptions C27_all_but_fully_connected_partial.

Example C27_case : layer_ok (LConv t_cv) /\ get_run_mode (LConv t_cv) = Training
  /\ twice (LConv t_cv) (tn (mkShape 1 1 1) [-2]%Z) t_y (tn (mkShape 1 1 1) [3]%Z) t_y = Some (ints [-3]%Z, ints [-3]%Z).
Proof. split; [exists (mkShape 1 1 1); split; [repeat split; reflexivity|exact t_cv_ok]|]. split; [reflexivity|]. vm_compute; reflexivity. Qed.

(** A fully connected layer replaces its mask by mask * gradient; the second call multiplies by the gradient again. *)
Theorem C27_fully_connected_refuted : fc_ok 1 2 t_fc /\ fc_run_state t_fc = Training
  /\ twice (LFC t_fc) (tn (mkShape 2 1 1) [1;1]%Z) t_y (tn (mkShape 1 1 1) [5]%Z) t_x = Some (ints [10;15]%Z, ints [50;75]%Z).
Proof. split; [exact t_fc_ok|]. split; [reflexivity|]. vm_compute; reflexivity. Qed.
Print Assumptions C27_fully_connected_refuted.

(** ** C28 *)
Theorem C28_forward : forall e bm ks (l : conv_layer f32) h bv x X Y0,
  let AR := f32_arith e in
  conv_layer_ok ks l -> all_hold bm (cv_kernels l) ks h ->
  (forall n b, nth_error (cv_biases l) (N.to_nat n) = Some b -> get_item bm b (mkIndex 0 0 0) = Done (bv n)) ->
  holds bm X (cv_input_shape l) x -> shaped Y0 (cv_output_shape l) ->
  exists l' Y, cv_forward bm l X Y0 = Done (l', Y, Ok tt)
    /\ holds bm Y (cv_output_shape l) (fun i j k => relu (fadd (sum (window_products ks (cv_stride l) x (h k) i j)) (bv k))).
Proof. exact (fun e bm ks l h bv x X Y0 => @conv_forward_holds f32 (f32_arith e) bm ks l h bv x X Y0 (f32_relu_agrees e)). Qed.
Print Assumptions C28_forward.

Theorem C28_same_in_both_modes : forall e bm ks (l1 l2 : conv_layer f32) X Y1 Y2,
  allocatable ks -> conv_layer_ok ks l1 -> conv_layer_ok ks l2 -> params_of (LConv l1) = params_of (LConv l2) ->
  shaped X (cv_input_shape l1) -> shaped Y1 (cv_output_shape l1) -> shaped Y2 (cv_output_shape l1) ->
  exists l1' l2' Y, @cv_forward bm f32 (f32_arith e) l1 X Y1 = Done (l1', Y, Ok tt)
    /\ @cv_forward bm f32 (f32_arith e) l2 X Y2 = Done (l2', Y, Ok tt).
Proof. exact conv_any_mode. Qed.
Print Assumptions C28_same_in_both_modes.

(** Accepted layers with matching biases are such layers, before and after a change of mode. *)
Theorem C28_accepted : forall F bm (l0 l : conv_layer F) kernels biases ins stride name ks,
  cv_fill_from_state bm l0 kernels biases ins stride name = Done (l, Ok tt) ->
  Forall (fun k => shaped k ks) kernels -> Forall (fun b => wf b /\ at_most_one (tshape b)) biases -> len kernels <= len biases ->
  len kernels < W32 -> dk ks = dk ins -> (bm = Debug \/ kernel_fits ins ks) ->
  ~ extent_edge (di ins) (di ks) stride -> ~ extent_edge (dj ins) (dj ks) stride ->
  cv_run_state l0 = Inference -> allocatable (cv_input_shape l) -> allocatable (cv_output_shape l) ->
  conv_layer_ok ks l /\ cv_kernels l = kernels /\ cv_biases l = biases /\ cv_stride l = stride /\ cv_input_shape l = ins /\ cv_name l = name
  /\ cv_run_state l = Inference.
Proof. exact @cv_fill_ok. Qed.
Print Assumptions C28_accepted.

Theorem C28_switched : forall F (AR : Arith F) bm ks (l : conv_layer F), allocatable ks -> conv_layer_ok ks l ->
  (exists l', cv_switch_to_training bm l = Done l' /\ conv_layer_ok ks l' /\ params_of (LConv l') = params_of (LConv l)
     /\ cv_name l' = cv_name l /\ cv_run_state l' = Training)
  /\ (exists l', cv_switch_to_inference bm l = Done l' /\ conv_layer_ok ks l' /\ params_of (LConv l') = params_of (LConv l)
     /\ cv_name l' = cv_name l /\ cv_run_state l' = Inference).
Proof. exact (fun F AR bm ks l A H => conj (@cv_switch_ok F AR bm Training l ks A H) (@cv_switch_ok F AR bm Inference l ks A H)). Qed.
Print Assumptions C28_switched.

Example C28_case : layer_ok d_cv
  /\ (let image := tn (mkShape 3 3 1) [1;2;3;4;5;6;7;8;-9]%Z in let y := tn (mkShape 2 2 2) [9;9;9;9;9;9;9;9]%Z in
      outs (forward Debug d_cv image y) = Some (ints [7;9;13;0;0;0;0;0]%Z)
      /\ (exists l, switch_to_training Debug d_cv = Done l /\ outs (forward Debug l image y) = Some (ints [7;9;13;0;0;0;0;0]%Z))).
Proof. split; [exact d_cv_ok|]. split; [vm_compute; reflexivity|]. eexists. split; [reflexivity|]. vm_compute; reflexivity. Qed.

(** ** C29 *)
(** Backward reads neither the mask nor the stored gradients: two layers with the same kernels give the same kernel gradients,
    outgoing gradient and result. *)
Theorem C29_mask_ignored_partial : forall F (AR : Arith F) bm ks (l1 l2 : conv_layer F) X Y g og,
  conv_layer_ok ks l1 -> conv_layer_ok ks l2 -> cv_run_state l1 = Training -> cv_run_state l2 = Training ->
  params_of (LConv l1) = params_of (LConv l2) -> shaped X (cv_input_shape l1) -> shaped g (cv_output_shape l1) ->
  match cv_backward bm l1 X Y g og, cv_backward bm l2 X Y g og with
  | Done (l1', og1, r1), Done (l2', og2, r2) => cv_kernel_gradients l1' = cv_kernel_gradients l2' /\ og1 = og2 /\ r1 = r2
  | Panic p1, Panic p2 => p1 = p2
  | _, _ => False
  end.
Proof. exact @conv_backward_unmasked. Qed.
Print Assumptions C29_mask_ignored_partial.

(** The only output is clipped (image 2, kernel -1), so both gradients should be 0. They are -3 and 6. *)
Theorem C29_refuted :
  let x := tn (mkShape 1 1 1) [2]%Z in
  conv_layer_ok (mkShape 1 1 1) t_cv /\ cv_run_state t_cv = Training
  /\ match cv_forward Debug t_cv x t_y with
     | Done (l1, y, Ok _) => tbits y = ints [0]%Z /\
         match cv_backward Debug l1 x y (tn (mkShape 1 1 1) [3]%Z) t_y with
         | Done (l2, og, Ok _) => tbits og = ints [-3]%Z /\ map tbits (cv_kernel_gradients l2) = [ints [6]%Z]
         | _ => False
         end
     | _ => False
     end.
Proof. split; [exact t_cv_ok|]. split; [reflexivity|]. vm_compute; repeat split. Qed.
Print Assumptions C29_refuted.

(** What is right: for one kernel, stride 1 and result extents equal to the kernel's, the gradients are those of convolution + bias,
    hence those of the layer when nothing is clipped. *)
Theorem C29_unclipped_partial : forall F (AR : Arith F) bm ks (l : conv_layer F) h x gf X Y g og,
  conv_layer_ok ks l -> cv_run_state l = Training -> all_hold bm (cv_kernels l) ks h ->
  holds bm X (cv_input_shape l) x -> holds bm g (cv_output_shape l) gf -> shaped og (cv_input_shape l) ->
  cv_stride l = 1 -> len (cv_kernels l) = 1 -> di (cv_output_shape l) = di ks -> dj (cv_output_shape l) = dj ks -> 0 < di ks -> 0 < dj ks ->
  di (cv_input_shape l) <= 2147483648 -> dj (cv_input_shape l) <= 2147483648 ->
  exists l' og', cv_backward bm l X Y g og = Done (l', og', Ok tt)
    /\ holds bm og' (cv_input_shape l) (fun a b c => sum (covering_products (cv_output_shape l) ks 1 h gf a b c))
    /\ all_hold bm (cv_kernel_gradients l') ks (fun _ a b c =>
         sum (map (fun '(i, j) => fmul (x (a + i * 1) (b + j * 1) c) (gf i j 0)) (channel_cells (cv_output_shape l)))).
Proof. exact @conv_backward_stride1. Qed.
Print Assumptions C29_unclipped_partial.

Example C29_case : conv_layer_ok (mkShape 1 1 1) t_cv /\ cv_run_state t_cv = Training /\ cv_stride t_cv = 1 /\ len (cv_kernels t_cv) = 1
  /\ di (cv_output_shape t_cv) = 1 /\ dj (cv_output_shape t_cv) = 1.
Proof. split; [exact t_cv_ok|]. repeat split. Qed.

(** ** C30 *)
Theorem C30_forward : forall F (AR : Arith F) bm l x (X Y0 : tensor F),
  mp_ok l -> holds bm X (mp_input_shape l) x -> shaped Y0 (mp_output_shape l) ->
  exists l' Y, mp_forward bm l X Y0 = Done (l', Y, Ok tt)
    /\ holds bm Y (mp_output_shape l) (fun i j k =>
         running_max (window_values (di (mp_mask_shape l)) (dj (mp_mask_shape l)) (mp_stride l) x i j k)).
Proof. exact @mp_forward_holds. Qed.
Print Assumptions C30_forward.

Theorem C30_same_in_both_modes : forall F (AR : Arith F) bm l1 l2 (X Y1 Y2 : tensor F),
  mp_ok l1 -> mp_ok l2 -> @params_of F (LMaxPool l1) = params_of (LMaxPool l2) ->
  shaped X (mp_input_shape l1) -> shaped Y1 (mp_output_shape l1) -> shaped Y2 (mp_output_shape l1) ->
  exists l1' l2' Y, mp_forward bm l1 X Y1 = Done (l1', Y, Ok tt) /\ mp_forward bm l2 X Y2 = Done (l2', Y, Ok tt).
Proof. exact @mp_any_mode. Qed.
Print Assumptions C30_same_in_both_modes.

Theorem C30_accepted : forall bm l0 l ins mask stride name,
  mp_fill_from_state bm l0 ins mask stride name = Done (l, Ok tt) ->
  (bm = Debug \/ kernel_fits ins mask) -> ~ extent_edge (di ins) (di mask) stride -> ~ extent_edge (dj ins) (dj mask) stride ->
  mp_run_state l0 = Inference -> allocatable (mp_input_shape l) -> allocatable (mp_output_shape l) ->
  mp_ok l /\ mp_input_shape l = ins /\ mp_mask_shape l = mask /\ mp_stride l = stride /\ mp_name l = name /\ mp_run_state l = Inference.
Proof. exact mp_fill_ok. Qed.
Print Assumptions C30_accepted.

Theorem C30_switched : forall bm l, mp_ok l ->
  (exists l', mp_switch_to_training bm l = Done l' /\ mp_ok l' /\ @params_of f32 (LMaxPool l') = params_of (LMaxPool l)
     /\ mp_name l' = mp_name l /\ mp_run_state l' = Training)
  /\ (exists l', mp_switch_to_inference bm l = Done l' /\ mp_ok l' /\ @params_of f32 (LMaxPool l') = params_of (LMaxPool l)
     /\ mp_name l' = mp_name l /\ mp_run_state l' = Inference).
Proof. exact (fun bm l H => conj (@mp_switch_ok f32 bm Training l H) (@mp_switch_ok f32 bm Inference l H)). Qed.
Print Assumptions C30_switched.

Example C30_case : layer_ok d_mp /\ outs (forward Debug d_mp d_image (tn (mkShape 2 1 1) [77;77]%Z)) = Some (ints [8;3]%Z)
  /\ exists l, switch_to_training Debug d_mp = Done l /\ outs (forward Debug l d_image (tn (mkShape 2 1 1) [0;0]%Z)) = Some (ints [8;3]%Z).
Proof. split; [exact d_mp_ok|]. split; [vm_compute; reflexivity|]. eexists. split; [reflexivity|]. vm_compute; reflexivity. Qed.

(** ** C46 *)
Theorem C46_new_partial : forall F (AR : Arith F) bm n m name, 0 < n -> 0 < m -> n < W32 -> m < W32 -> n * m < W32 ->
  exists l : fc_layer F, fc_new bm n m name = Done l /\ fc_ok m n l
    /\ fc_input_shape l = mkShape n 1 1 /\ fc_output_shape l = mkShape m 1 1
    /\ holds bm (fc_weights l) (mkShape m n 1) (fun _ _ _ => fzero) /\ holds bm (fc_bias l) (mkShape m 1 1) (fun _ _ _ => fzero)
    /\ fc_name l = name /\ fc_run_state l = Inference.
Proof. exact @fc_new_holds. Qed.
Print Assumptions C46_new_partial.

(** No outputs: panics for every number of inputs. No inputs: the layer gets one. *)
Theorem C46_no_outputs_refuted : forall F (AR : Arith F) bm n name, n < W32 -> @fc_new bm F AR n 0 name = Panic PUnwrap.
Proof. exact @fc_new_no_outputs. Qed.
Print Assumptions C46_no_outputs_refuted.

Theorem C46_no_inputs_refuted : forall F (AR : Arith F) bm m name, 0 < m -> m < W32 ->
  exists l : fc_layer F, fc_new bm 0 m name = Done l /\ fc_input_shape l = mkShape 1 1 1.
Proof. exact @fc_new_no_inputs. Qed.
Print Assumptions C46_no_inputs_refuted.

Example C46_case : exists l : fc_layer f32, fc_new Debug 3 2 "dense" = Done l /\ fc_input_shape l = mkShape 3 1 1 /\ fc_output_shape l = mkShape 2 1 1
  /\ tbits (fc_weights l) = ints [0;0;0;0;0;0]%Z /\ tbits (fc_bias l) = ints [0;0]%Z.
Proof. eexists. split; [reflexivity|]. repeat split; vm_compute; reflexivity. Qed.

(** ** C47 *)
(** Missing from the property: kernels as deep as the image, one-element biases for every kernel, and, in release builds, a kernel that
    fits in the image. [fill_from_state] checks none of them. *)
Theorem C47_forward_partial : forall e bm (l0 l : conv_layer f32) kernels biases ins stride name ks X Y0,
  cv_fill_from_state bm l0 kernels biases ins stride name = Done (l, Ok tt) ->
  Forall (fun k => shaped k ks) kernels -> Forall (fun b => wf b /\ at_most_one (tshape b)) biases -> len kernels <= len biases ->
  len kernels < W32 -> dk ks = dk ins -> (bm = Debug \/ kernel_fits ins ks) ->
  ~ extent_edge (di ins) (di ks) stride -> ~ extent_edge (dj ins) (dj ks) stride ->
  cv_run_state l0 = Inference -> shaped X (cv_input_shape l) -> shaped Y0 (cv_output_shape l) ->
  exists l' Y, @cv_forward bm f32 (f32_arith e) l X Y0 = Done (l', Y, Ok tt).
Proof. exact (fun e bm l0 l kernels biases ins stride name ks X Y0 => @conv_accepted_forward f32 (f32_arith e) bm l0 l kernels biases ins stride name ks X Y0 (f32_relu_agrees e)). Qed.
Print Assumptions C47_forward_partial.

Definition C47_accepts_but (bm : build) (kernels biases : list (tensor f32)) (ins : shape) (stride : N) (st : run_state) (p : res bool) : Prop :=
  match (l0 <- cv_empty bm ;; cv_fill_from_state bm (cv_set_run_state l0 st) kernels biases ins stride "c") with
  | Done (l, Ok _) =>
      match tensor_new bm (cv_input_shape l), tensor_new bm (cv_output_shape l) with
      | Done x, Done y => match cv_forward bm l x y with
                          | Done (_, _, Ok _) => p = Done true
                          | Done (_, _, Err _) => p = Done false
                          | Panic q => p = Panic q
                          end
      | _, _ => False
      end
  | _ => False
  end.

Theorem C47_refuted :
  let k d := tn (mkShape 1 1 d) (repeat 1%Z (N.to_nat d)) in let b := tn (mkShape 1 1 1) [0]%Z in
  (* one bias for two kernels: panics *)
  C47_accepts_but Debug [k 1; k 1] [b] (mkShape 2 1 1) 1 Inference (Panic PBounds)
  (* kernel deeper than the image: Err *)
  /\ C47_accepts_but Debug [k 2] [b] (mkShape 2 1 1) 1 Inference (Done false)
  (* bias with two elements: Err *)
  /\ C47_accepts_but Debug [k 1] [k 2] (mkShape 2 1 1) 1 Inference (Done false)
  (* filled while in training mode: the mask has the old shape, Err *)
  /\ C47_accepts_but Debug [k 1] [b] (mkShape 2 1 1) 1 Training (Done false)
  (* a kernel larger than the image, release build: panics *)
  /\ C47_accepts_but Release [tn (mkShape 4 4 1) (repeat 1%Z 16)] [b] (mkShape 2 2 1) 2147483647 Inference (Panic PBounds).
Proof. repeat split; vm_compute; reflexivity. Qed.
Print Assumptions C47_refuted.

Example C47_case :
  let k := tn (mkShape 1 1 1) [3]%Z in let b := tn (mkShape 1 1 1) [0]%Z in
  C47_accepts_but Debug [k; k] [b; b] (mkShape 2 1 1) 1 Inference (Done true)
  /\ Forall (fun k => shaped k (mkShape 1 1 1)) [k; k] /\ ~ extent_edge 2 1 1 /\ ~ extent_edge 1 1 1.
Proof.
  split; [vm_compute; reflexivity|]. split; [repeat (constructor; [split; [demo_wf|reflexivity]|]); constructor|].
  split; intros (H & _); discriminate.
Qed.
