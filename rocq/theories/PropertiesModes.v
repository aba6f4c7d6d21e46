(** * C67 to C69: backward outside training mode, changes of mode, constructors *)
From Verif Require Import Base Arith Helper Tensor Network Bincode Serial Float32 Spec SpecLayer SpecTrain SpecNet SpecModes.
From Verif Require Import ProofsFloat ProofsModes ProofsNew Demo DemoNet DemoTrain DemoModes.

(** ** C67: missing are the max-pool and convolutional layers, which do not look at their mode. *)
Theorem C67_refused_partial : forall F (AR : Arith F) bm (l : layer F) X Y g og, get_run_mode l = Inference ->
  match l with LFC _ | LSoftmax _ => True | _ => False end -> exists e, backward bm l X Y g og = Done (l, og, Err e).
Proof. exact @backward_refused. Qed.
Print Assumptions C67_refused_partial.

(** A max-pool layer in inference mode answers Ok with a gradient of zeros, a convolutional layer panics, on all operands. *)
Theorem C67_max_pool_refuted : forall F (AR : Arith F) bm l (X Y g og : tensor F) s, idle bm (LMaxPool l) -> wf g -> shaped og s ->
  exists og', backward bm (LMaxPool l) X Y g og = Done (LMaxPool l, og', Ok tt) /\ zeros bm og' s.
Proof. exact @pool_backward_idle. Qed.
Print Assumptions C67_max_pool_refuted.

Theorem C67_convolutional_refuted : forall F (AR : Arith F) bm l (X Y g og : tensor F), idle bm (LConv l) -> cv_kernels l <> [] ->
  backward bm (LConv l) X Y g og = Panic PBounds.
Proof. exact @conv_backward_idle. Qed.
Print Assumptions C67_convolutional_refuted.

(** The three cases on the layers of the other examples; the gradient of the pooling layer was 5 everywhere before. *)
Example C67_case : get_run_mode d_fc = Inference
  /\ (exists l, d_mp = LMaxPool l /\ idle Debug (LMaxPool l)) /\ (exists l, d_cv = LConv l /\ idle Debug (LConv l) /\ cv_kernels l <> [])
  /\ match backward Debug d_mp d_image (tn (mkShape 2 1 1) [8;3]%Z) (tn (mkShape 2 1 1) [1;2]%Z) (tn (mkShape 4 2 1) (repeat 5%Z 8)) with
     | Done (_, og, Ok _) => tbits og = ints (repeat 0%Z 8)
     | _ => False
     end.
Proof.
  split; [reflexivity|]. split; [eexists; split; [reflexivity|]; split; reflexivity|].
  split; [eexists; split; [reflexivity|]; split; [split; [reflexivity|]; split; [reflexivity|]; split; [reflexivity|exact dot_zero]|discriminate]|].
  vm_compute; reflexivity.
Qed.

(** ** C68 *)
Theorem C68_switch : forall F (AR : Arith F) bm st (l : layer F), layer_ok l ->
  exists l', switch_to bm st l = Done l' /\ params_of l' = params_of l /\ get_name l' = get_name l /\ get_run_mode l' = st
    /\ layer_ok l' /\ buffers bm st l'.
Proof. exact @switch_buffers. Qed.
Print Assumptions C68_switch.

Theorem C68_forgets : forall F (AR : Arith F) bm st (l1 l2 : layer F),
  params_of l1 = params_of l2 -> get_name l1 = get_name l2 -> switch_to bm st l1 = switch_to bm st l2.
Proof. exact @switch_forgets. Qed.
Print Assumptions C68_forgets.

(** [clear_gradients] does the same without leaving training mode, except that a convolutional layer keeps its bias gradients
    and its mask. *)
Theorem C68_clear : forall F (AR : Arith F) bm (l : layer F), layer_ok l -> get_run_mode l = Training ->
  params_of (clear_gradients l) = params_of l /\ get_name (clear_gradients l) = get_name l /\ get_run_mode (clear_gradients l) = Training
  /\ match l, clear_gradients l with
     | LConv l, LConv l' =>
         Forall2 (fun g k => zeros bm g (tshape k)) (cv_kernel_gradients l') (cv_kernels l)
         /\ cv_bias_gradients l' = cv_bias_gradients l /\ cv_relu_mask l' = cv_relu_mask l
     | _, l' => cleared bm l'
     end.
Proof. exact @clear_buffers. Qed.
Print Assumptions C68_clear.

Theorem C68_network_training : forall e bm (n : network f32), @well_built f32 (f32_arith e) f32_bits bm n ->
  exists n', @net_switch_to_training bm f32 (f32_arith e) n = Done n'
    /\ map params_of (layers n') = map params_of (layers n) /\ map get_name (layers n') = map get_name (layers n)
    /\ Forall (fun l => get_run_mode l = Training /\ @cleared f32 (f32_arith e) bm l) (layers n')
    /\ intermediate_states n' = intermediate_states n
    /\ Forall2 (fun g s => @zeros f32 (f32_arith e) bm g (tshape s)) (intermediate_gradients n') (intermediate_states n).
Proof. exact (fun e bm n => @net_switch_training f32 (f32_arith e) f32_bits bm n (f32_relu_agrees e)). Qed.
Print Assumptions C68_network_training.

Theorem C68_network_inference : forall e bm (n : network f32), @well_built f32 (f32_arith e) f32_bits bm n ->
  exists n', @net_switch_to_inference bm f32 (f32_arith e) n = Done n'
    /\ map params_of (layers n') = map params_of (layers n) /\ map get_name (layers n') = map get_name (layers n)
    /\ Forall (fun l => get_run_mode l = Inference /\ @dropped f32 (f32_arith e) bm l) (layers n')
    /\ intermediate_states n' = intermediate_states n /\ intermediate_gradients n' = [].
Proof. exact (fun e bm n => @net_switch_inference f32 (f32_arith e) f32_bits bm n (f32_relu_agrees e)). Qed.
Print Assumptions C68_network_inference.

Theorem C68_network_forgets : forall F (AR : Arith F) bm (n1 n2 n1' n2' : network F),
  map params_of (layers n1) = map params_of (layers n2) -> map get_name (layers n1) = map get_name (layers n2) ->
  net_switch_to_training bm n1 = Done n1' -> net_switch_to_training bm n2 = Done n2' -> layers n1' = layers n2'.
Proof. exact @net_switch_same. Qed.
Print Assumptions C68_network_forgets.

(** A layer with weights (2, 3), bias -1 that has accumulated gradients: cleared, switched away and back. *)
Example C68_case : layer_ok (LFC t_fc) /\ get_run_mode (LFC t_fc) = Training
  /\ match train_all Debug (LFC t_fc) t_history with
     | Done (l, Ok _) => fc_grads (Done (l, Ok tt)) = Some (ints [43;-14]%Z, ints [13]%Z)
         /\ fc_grads (Done (clear_gradients l, Ok tt)) = Some (ints [0;0]%Z, ints [0]%Z)
         /\ match (l1 <- switch_to_inference Debug l ;; switch_to_training Debug l1) with
            | Done l2 => fc_grads (Done (l2, Ok tt)) = Some (ints [0;0]%Z, ints [0]%Z)
            | Panic _ => False
            end
     | _ => False
     end.
Proof. split; [exists 1, 2; exact t_fc_ok|]. split; [reflexivity|]. vm_compute. repeat split. Qed.

(** ** C69 *)
Theorem C69_convolutional : forall F (AR : Arith F) bm ks ins stride depth name d0 d1, allocatable ks -> 0 < depth -> depth < W32 ->
  tiles (di ins) (di ks) stride d0 -> tiles (dj ins) (dj ks) stride d1 -> d0 < W32 -> d1 < W32 ->
  exists l : conv_layer F, cv_new bm ks ins stride depth name = Done (Ok l)
    /\ cv_input_shape l = ins /\ cv_output_shape l = mkShape d0 d1 depth /\ cv_stride l = stride /\ cv_name l = name
    /\ len (cv_kernels l) = depth /\ Forall (fun k => zeros bm k ks) (cv_kernels l)
    /\ len (cv_biases l) = depth /\ Forall (fun b => zeros bm b (mkShape 1 1 1)) (cv_biases l)
    /\ idle bm (LConv l)
    /\ (dk ks = dk ins -> allocatable ins -> allocatable (mkShape d0 d1 depth) -> conv_layer_ok ks l).
Proof. exact @cv_new_accepts. Qed.
Print Assumptions C69_convolutional.

Theorem C69_convolutional_exact : forall F (AR : Arith F) ks ins stride depth name, allocatable ks -> depth < W32 ->
  ((exists l : conv_layer F, cv_new Debug ks ins stride depth name = Done (Ok l)) <->
   0 < depth /\ exists d0 d1, tiles (di ins) (di ks) stride d0 /\ tiles (dj ins) (dj ks) stride d1 /\ d0 < W32 /\ d1 < W32).
Proof. exact @cv_new_exact. Qed.
Print Assumptions C69_convolutional_exact.

Theorem C69_max_pool : forall F (AR : Arith F) bm mask ins stride name d0 d1,
  tiles (di ins) (di mask) stride d0 -> tiles (dj ins) (dj mask) stride d1 -> d0 < W32 -> d1 < W32 ->
  exists l, mp_new bm mask ins stride name = Done (Ok l)
    /\ mp_input_shape l = ins /\ mp_mask_shape l = mask /\ mp_output_shape l = mkShape d0 d1 (dk ins) /\ mp_stride l = stride /\ mp_name l = name
    /\ idle (F:=F) bm (LMaxPool l) /\ (allocatable ins -> allocatable (mkShape d0 d1 (dk ins)) -> mp_ok l).
Proof. exact @mp_new_accepts. Qed.
Print Assumptions C69_max_pool.

Theorem C69_max_pool_exact : forall mask ins stride name,
  (exists l, mp_new Debug mask ins stride name = Done (Ok l)) <->
  exists d0 d1, tiles (di ins) (di mask) stride d0 /\ tiles (dj ins) (dj mask) stride d1 /\ d0 < W32 /\ d1 < W32.
Proof. exact mp_new_exact. Qed.
Print Assumptions C69_max_pool_exact.

Theorem C69_softmax : forall F (AR : Arith F) bm s name,
  exists l : sm_layer F, sm_new bm s name = Done (Ok l) /\ sm_shape l = s /\ sm_name l = name /\ idle bm (LSoftmax l) /\ (allocatable s -> sm_ok l).
Proof. exact @sm_new_accepts. Qed.
Print Assumptions C69_softmax.

Theorem C69_fill : forall F (AR : Arith F) bm m n (l : fc_layer F) v, fc_ok m n l ->
  (fc_ok m n (fc_fill_weights l v) /\ holds bm (fc_weights (fc_fill_weights l v)) (mkShape m n 1) (fun _ _ _ => v)
     /\ fc_bias (fc_fill_weights l v) = fc_bias l /\ fc_name (fc_fill_weights l v) = fc_name l /\ fc_run_state (fc_fill_weights l v) = fc_run_state l)
  /\ (fc_ok m n (fc_fill_bias l v) /\ holds bm (fc_bias (fc_fill_bias l v)) (mkShape m 1 1) (fun _ _ _ => v)
     /\ fc_weights (fc_fill_bias l v) = fc_weights l /\ fc_name (fc_fill_bias l v) = fc_name l /\ fc_run_state (fc_fill_bias l v) = fc_run_state l).
Proof. exact @fc_fill_values. Qed.
Print Assumptions C69_fill.

(** 2x3 kernels on a 6x7 image of depth 2, stride 2; a stride that does not fit is refused. *)
Example C69_case : tiles 6 2 2 3 /\ tiles 7 3 2 3
  /\ match @cv_new Debug f32 _ (mkShape 2 3 2) (mkShape 6 7 2) 2 4 "conv" with
     | Done (Ok l) => cv_output_shape l = mkShape 3 3 4 /\ len (cv_kernels l) = 4
     | _ => False
     end
  /\ match mp_new Debug (mkShape 2 3 1) (mkShape 6 7 2) 2 "pool" with Done (Ok l) => mp_output_shape l = mkShape 3 3 2 | _ => False end
  /\ match mp_new Debug (mkShape 2 3 1) (mkShape 6 7 2) 3 "pool" with Done (Err _) => True | _ => False end.
Proof. split; [|split; [|split; [|split]]]; vm_compute; try (repeat split; discriminate || reflexivity); exact I. Qed.
