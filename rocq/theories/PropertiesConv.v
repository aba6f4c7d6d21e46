(** * C12 - C17: convolution *)
From Verif Require Import Base Arith Helper Tensor Convolution Network Float32 Spec.
From Verif Require Import ProofsTensor ProofsConv ProofsBackprop ProofsConvRelu Demo.

(** ** C12 *)
Theorem C12_debug_accepts : forall im kernel stride r ch, u32_shape r ->
  (check_convolution_dimensions Debug im kernel stride r ch = Done (Ok tt) <-> conv_ok im kernel stride r ch).
Proof. exact check_conv_debug_iff. Qed.
Print Assumptions C12_debug_accepts.

Theorem C12_no_tiling_is_rejected : forall bm im kernel stride r ch, u32_shape r ->
  conv_ok im kernel stride r ch -> check_convolution_dimensions bm im kernel stride r ch = Done (Ok tt).
Proof. exact check_conv_complete. Qed.
Print Assumptions C12_no_tiling_is_rejected.

(** The property's list of panics lacks one case: the tile count itself overflowing ([extent_edge]). *)
Theorem C12_panics_partial : forall bm im kernel stride r ch p, u32_shape im ->
  check_convolution_dimensions bm im kernel stride r ch = Panic p ->
  stride = 0 \/ ~ kernel_fits im kernel \/ extent_edge (di im) (di kernel) stride \/ extent_edge (dj im) (dj kernel) stride.
Proof. exact check_conv_panic. Qed.
Print Assumptions C12_panics_partial.

Theorem C12_panics_refuted : exists im kernel stride r ch p,
  u32_shape im /\ u32_shape kernel /\ u32_shape r /\ stride <> 0 /\ kernel_fits im kernel
  /\ check_convolution_dimensions Debug im kernel stride r ch = Panic p.
Proof.
  exists (mkShape 4294967295 1 1), (mkShape 0 1 1), 1, (mkShape 1 1 1), 0, POverflow.
  repeat split; try reflexivity; discriminate.
Qed.
Print Assumptions C12_panics_refuted.

(** A release build accepts exactly the tilings of the wrapped extents. *)
Theorem C12_release_exact_partial : forall im kernel stride r ch, u32_shape im -> u32_shape kernel ->
  (check_convolution_dimensions Release im kernel stride r ch = Done (Ok tt) <->
   dk im = dk kernel /\ wrapped_tiles (di im) (di kernel) stride (di r)
   /\ wrapped_tiles (dj im) (dj kernel) stride (dj r) /\ ch < dk r).
Proof. exact check_conv_release_iff. Qed.
Print Assumptions C12_release_exact_partial.

Theorem C12_release_refuted : exists im kernel stride r ch,
  u32_shape im /\ u32_shape kernel /\ u32_shape r
  /\ check_convolution_dimensions Release im kernel stride r ch = Done (Ok tt) /\ ~ conv_ok im kernel stride r ch.
Proof.
  exists (mkShape 2 2 1), (mkShape 4 4 1), 2147483647, (mkShape 3 3 1), 0.
  repeat (split; [try reflexivity; repeat split; reflexivity|]).
  intros (_ & (_ & H & _) & _). apply H. reflexivity.
Qed.
Print Assumptions C12_release_refuted.

Example C12_case : u32_shape (mkShape 3 2 5) /\ conv_ok (mkShape 7 5 2) (mkShape 3 3 2) 2 (mkShape 3 2 5) 4.
Proof. repeat split; try reflexivity; discriminate. Qed.

(** ** C13 *)
Theorem C13_convolution_bias : forall F (AR : Arith F) bm (image kernel bias r : tensor F) s ks bs rs f h fb g bv stride ch,
  holds bm image s f -> holds bm kernel ks h -> holds bm bias bs fb -> holds bm r rs g ->
  get_item bm bias (mkIndex 0 0 0) = Done bv ->
  (conv_ok s ks stride rs ch -> at_most_one bs ->
     exists r', convolution_bias bm image kernel bias stride r ch = Done (r', Ok tt))
  /\ (forall r', convolution_bias bm image kernel bias stride r ch = Done (r', Ok tt) ->
        holds bm r' rs (fun i j k => if k =? ch then fadd (sum (window_products ks stride f h i j)) bv else g i j k)
        /\ at_most_one bs /\ dk s = dk ks /\ ch < dk rs)
  /\ (forall r' e, convolution_bias bm image kernel bias stride r ch = Done (r', Err e) -> r' = r)
  /\ (bm = Debug \/ kernel_fits s ks ->
        forall r', convolution_bias bm image kernel bias stride r ch = Done (r', Ok tt) -> 0 < di rs -> 0 < dj rs ->
        conv_ok s ks stride rs ch).
Proof. exact (fun F AR => @conv_with_spec F AR (fun x => x)). Qed.
Print Assumptions C13_convolution_bias.

Theorem C13_no_panic : forall F (AR : Arith F) bm (image kernel bias r : tensor F) s ks bs rs f h fb g stride ch,
  holds bm image s f -> holds bm kernel ks h -> holds bm bias bs fb -> holds bm r rs g ->
  stride <> 0 -> kernel_fits s ks -> ~ extent_edge (di s) (di ks) stride -> ~ extent_edge (dj s) (dj ks) stride ->
  exists r' e, convolution_bias bm image kernel bias stride r ch = Done (r', e) /\ wf r' /\ tshape r' = rs.
Proof. exact (fun F AR => @conv_with_no_panic F AR (fun x => x)). Qed.
Print Assumptions C13_no_panic.

Example C13_case :
  let image := tn (mkShape 5 3 2) [1;2;3;4;5;6;7;8;9;10;11;12;13;14;15;1;0;1;0;1;0;1;0;1;0;1;0;1;0;1]%Z in
  let kernel := tn (mkShape 3 3 2) [1;0;0;0;1;0;0;0;1;1;1;1;0;0;0;2;2;2]%Z in
  let bias := tn (mkShape 1 1 1) [100]%Z in
  let r := tn (mkShape 2 1 2) [7;7;7;7]%Z in
  wf image /\ wf kernel /\ wf bias /\ wf r /\ conv_ok (tshape image) (tshape kernel) 2 (tshape r) 1
  /\ at_most_one (tshape bias)
  /\ out2 (convolution_bias Debug image kernel bias 2 r 1) = Some (ints [7;7;127;133]%Z).
Proof.
  split; [demo_wf|]. split; [demo_wf|]. split; [demo_wf|]. split; [demo_wf|].
  split; [repeat split; try reflexivity; discriminate|]. split; [repeat split; discriminate|]. vm_compute. reflexivity.
Qed.

(** ** C14 *)
Theorem C14_convolution_bias_relu : forall e1 e2 bm (image kernel bias r : tensor f32) stride ch,
  wf image -> wf kernel -> wf bias -> wf r ->
  let plain := @convolution_bias bm f32 (f32_arith e1) image kernel bias stride r ch in
  let fused := @convolution_bias_relu bm f32 (f32_arith e2) image kernel bias stride r ch in
  (forall p, plain = Panic p <-> fused = Panic p)
  /\ (forall msg, (exists t, plain = Done (t, Err msg)) <-> fused = Done (r, Err msg))
  /\ ((exists t, plain = Done (t, Ok tt)) <-> (exists t, fused = Done (t, Ok tt)))
  /\ (forall t t', plain = Done (t, Ok tt) -> fused = Done (t', Ok tt) -> wf t' /\ tshape t' = tshape r
        /\ forall i j k, in_shape (tshape r) i j k -> exists x,
             @get_item bm f32 (f32_arith e1) t (mkIndex i j k) = Done x
             /\ @get_item bm f32 (f32_arith e2) t' (mkIndex i j k)
                = Done (if k =? ch then (if f32_gtb x f32_zero then x else f32_zero) else x)).
Proof. exact conv_relu_spec. Qed.
Print Assumptions C14_convolution_bias_relu.

Example C14_case :
  let image := tn (mkShape 3 1 1) [1;-2;3]%Z in let kernel := tn (mkShape 1 1 1) [2]%Z in
  let bias := tn (mkShape 1 1 1) [1]%Z in let r := tn (mkShape 3 1 2) [9;9;9;9;9;9]%Z in
  wf image /\ wf kernel /\ wf bias /\ wf r
  /\ out2 (convolution_bias Debug image kernel bias 1 r 0) = Some (ints [3;-3;7;9;9;9]%Z)
  /\ out2 (convolution_bias_relu Debug image kernel bias 1 r 0) = Some (ints [3;0;7;9;9;9]%Z).
Proof.
  split; [demo_wf|]. split; [demo_wf|]. split; [demo_wf|]. split; [demo_wf|]. split; vm_compute; reflexivity.
Qed.

(** ** C15 *)
Theorem C15_debug_kernel_partial : forall im kernel stride,
  does_kernel_stride_fit_image Debug im kernel stride = Done true -> kernel_fits im kernel.
Proof. exact kernel_fit_debug. Qed.
Print Assumptions C15_debug_kernel_partial.

Theorem C15_debug_convolutional_partial : forall F (AR : Arith F) ks ins stride depth name (l : conv_layer F),
  cv_new Debug ks ins stride depth name = Done (Ok l) -> kernel_fits ins ks.
Proof. exact @cv_new_fits. Qed.
Print Assumptions C15_debug_convolutional_partial.

Theorem C15_debug_convolutional_state_partial :
  forall F (AR : Arith F) (l : conv_layer F) kernels biases ins stride name l',
  cv_fill_from_state Debug l kernels biases ins stride name = Done (l', Ok tt) ->
  forall k, In k kernels -> kernel_fits ins (tshape k).
Proof. exact @cv_fill_fits. Qed.
Print Assumptions C15_debug_convolutional_state_partial.

Theorem C15_debug_max_pool_partial : forall mask ins stride name l,
  mp_new Debug mask ins stride name = Done (Ok l) -> kernel_fits ins mask.
Proof. exact mp_new_fits. Qed.
Print Assumptions C15_debug_max_pool_partial.

(** What a release build accepts instead. *)
Theorem C15_release_exact_partial : forall im kernel stride, u32_shape im -> u32_shape kernel ->
  (does_kernel_stride_fit_image Release im kernel stride = Done true <->
   stride <> 0 /\ wrapping_sub (di im) (di kernel) mod stride = 0 /\ wrapping_sub (dj im) (dj kernel) mod stride = 0).
Proof. exact kernel_fit_release. Qed.
Print Assumptions C15_release_exact_partial.

Theorem C15_release_refuted :
  let im := mkShape 2 2 1 in let kernel := mkShape 4 4 1 in
  does_kernel_stride_fit_image Release im kernel 1 = Done true /\ ~ kernel_fits im kernel
  /\ (exists l : mp_layer, mp_new Release kernel im 1 "p" = Done (Ok l))
  /\ (exists l : conv_layer f32, cv_new Release kernel im 1 1 "c" = Done (Ok l)).
Proof.
  split; [reflexivity|]. split; [intros (H & _); apply H; reflexivity|].
  split; [eexists; vm_compute; reflexivity|]. eexists; vm_compute; reflexivity.
Qed.
Print Assumptions C15_release_refuted.

Example C15_case : does_kernel_stride_fit_image Debug (mkShape 8 8 3) (mkShape 2 4 3) 2 = Done true.
Proof. reflexivity. Qed.

(** ** C16 *)
(** Missing from the full statement: strides above 1, and result extents different from the kernel's. For these the
    function is wrong, see below. The bounds on the image extents keep the i32 conversions exact. *)
Theorem C16_outgoing_gradient_partial :
  forall F (AR : Arith F) bm (incoming outgoing : tensor F) (kernels : list (tensor F)) s rs ks g h o,
  holds bm incoming rs g -> holds bm outgoing s o -> all_hold bm kernels ks h -> len kernels = dk rs ->
  (forall k, k < dk rs -> conv_ok s ks 1 rs k) ->
  di rs = di ks -> dj rs = dj ks -> di s <= 2147483648 -> dj s <= 2147483648 -> 0 < di ks -> 0 < dj ks ->
  exists og, convolution_backprop_outgoing_gradient bm incoming kernels 1 outgoing = Done (og, Ok tt)
    /\ holds bm og s (fun a b c => sum (covering_products rs ks 1 h g a b c)).
Proof. exact @outgoing_stride1. Qed.
Print Assumptions C16_outgoing_gradient_partial.

Example C16_case :
  let incoming := tn (mkShape 2 1 2) [1;2;10;20]%Z in let outgoing := tn (mkShape 3 1 1) [9;9;9]%Z in
  let kernels := [tn (mkShape 2 1 1) [3;4]%Z; tn (mkShape 2 1 1) [5;6]%Z] in
  wf incoming /\ wf outgoing /\ (forall k, In k kernels -> wf k)
  /\ (forall k, k < 2 -> conv_ok (mkShape 3 1 1) (mkShape 2 1 1) 1 (mkShape 2 1 2) k)
  /\ out2 (convolution_backprop_outgoing_gradient Debug incoming kernels 1 outgoing) = Some (ints [53;170;128]%Z).
Proof.
  split; [demo_wf|]. split; [demo_wf|]. split.
  { intros k [<-|[<-|[]]]; demo_wf. }
  split; [intros k Hk; repeat split; try reflexivity; try discriminate; exact Hk|]. vm_compute. reflexivity.
Qed.

(** Stride 2: every position is covered by one window, but its gradient is 0. *)
Theorem C16_stride_refuted :
  let incoming := tn (mkShape 2 1 1) [1;1]%Z in let outgoing := tn (mkShape 4 1 1) [0;0;0;0]%Z in
  let kernel := tn (mkShape 2 1 1) [1;1]%Z in
  wf incoming /\ wf outgoing /\ wf kernel /\ conv_ok (tshape outgoing) (tshape kernel) 2 (tshape incoming) 0
  /\ out2 (convolution_backprop_outgoing_gradient Debug incoming [kernel] 2 outgoing) = Some (ints [0;0;0;0]%Z)
  /\ map (fun a => bits (sum (covering_products (tshape incoming) (tshape kernel) 2 (fun _ => at_ kernel) (at_ incoming) a 0 0)))
       [0;1;2;3] = ints [1;1;1;1]%Z.
Proof.
  split; [demo_wf|]. split; [demo_wf|]. split; [demo_wf|].
  split; [repeat split; try reflexivity; discriminate|]. split; vm_compute; reflexivity.
Qed.
Print Assumptions C16_stride_refuted.

(** More output positions than kernel extent: the last ones are dropped. *)
Theorem C16_truncated_refuted :
  let incoming := tn (mkShape 3 1 1) [1;1;1]%Z in let outgoing := tn (mkShape 3 1 1) [0;0;0]%Z in
  let kernel := tn (mkShape 1 1 1) [1]%Z in
  wf incoming /\ wf outgoing /\ wf kernel /\ conv_ok (tshape outgoing) (tshape kernel) 1 (tshape incoming) 0
  /\ out2 (convolution_backprop_outgoing_gradient Debug incoming [kernel] 1 outgoing) = Some (ints [1;0;0]%Z)
  /\ map (fun a => bits (sum (covering_products (tshape incoming) (tshape kernel) 1 (fun _ => at_ kernel) (at_ incoming) a 0 0)))
       [0;1;2] = ints [1;1;1]%Z.
Proof.
  split; [demo_wf|]. split; [demo_wf|]. split; [demo_wf|].
  split; [repeat split; try reflexivity; discriminate|]. split; vm_compute; reflexivity.
Qed.
Print Assumptions C16_truncated_refuted.

(** Fewer output positions than kernel extent: reads past the end of the gradient. *)
Theorem C16_panic_refuted :
  let incoming := tn (mkShape 2 1 1) [1;1]%Z in let outgoing := tn (mkShape 5 1 1) [0;0;0;0;0]%Z in
  let kernel := tn (mkShape 4 1 1) [1;1;1;1]%Z in
  wf incoming /\ wf outgoing /\ wf kernel /\ conv_ok (tshape outgoing) (tshape kernel) 1 (tshape incoming) 0
  /\ convolution_backprop_outgoing_gradient Debug incoming [kernel] 1 outgoing = Panic PBounds.
Proof.
  split; [demo_wf|]. split; [demo_wf|]. split; [demo_wf|].
  split; [repeat split; try reflexivity; discriminate|]. vm_compute; reflexivity.
Qed.
Print Assumptions C16_panic_refuted.

(** ** C17 *)
(** What is computed: the sum over all channels of the incoming gradient, whatever [ch]. *)
Theorem C17_kernel_gradient_exact_partial :
  forall F (AR : Arith F) bm (incoming image kg : tensor F) rs s ks g f h stride ch,
  holds bm incoming rs g -> holds bm image s f -> holds bm kg ks h -> conv_ok s ks stride rs ch ->
  exists kg', convolution_backprop_kernel bm incoming image stride ch kg = Done (kg', Ok tt)
    /\ holds bm kg' ks (fun l m n =>
         sum (map (fun '(i, j, k) => fmul (f (l + i * stride) (m + j * stride) n) (g i j k)) (cells rs))).
Proof. exact @backprop_kernel_spec. Qed.
Print Assumptions C17_kernel_gradient_exact_partial.

(** The property holds with a single channel. *)
Theorem C17_kernel_gradient_one_channel_partial :
  forall F (AR : Arith F) bm (incoming image kg : tensor F) rs s ks g f h stride,
  holds bm incoming rs g -> holds bm image s f -> holds bm kg ks h -> conv_ok s ks stride rs 0 -> dk rs = 1 ->
  exists kg', convolution_backprop_kernel bm incoming image stride 0 kg = Done (kg', Ok tt)
    /\ holds bm kg' ks (fun l m n =>
         sum (map (fun '(i, j) => fmul (f (l + i * stride) (m + j * stride) n) (g i j 0)) (channel_cells rs))).
Proof. exact @backprop_kernel_depth1. Qed.
Print Assumptions C17_kernel_gradient_one_channel_partial.

Theorem C17_channels_refuted :
  let image := tn (mkShape 1 1 1) [1]%Z in let incoming := tn (mkShape 1 1 2) [1;1]%Z in
  let kg := tn (mkShape 1 1 1) [0]%Z in
  wf image /\ wf incoming /\ wf kg /\ conv_ok (tshape image) (tshape kg) 1 (tshape incoming) 0
  /\ out2 (convolution_backprop_kernel Debug incoming image 1 0 kg) = Some (ints [2]%Z)
  /\ bits (sum (map (fun '(i, j) => fmul (at_ image (0 + i * 1) (0 + j * 1) 0) (at_ incoming i j 0))
                  (channel_cells (tshape incoming)))) = bits (f32_of_Z 1).
Proof.
  split; [demo_wf|]. split; [demo_wf|]. split; [demo_wf|].
  split; [repeat split; try reflexivity; discriminate|]. split; vm_compute; reflexivity.
Qed.
Print Assumptions C17_channels_refuted.

Example C17_case :
  let image := tn (mkShape 3 1 1) [1;2;3]%Z in let incoming := tn (mkShape 2 1 1) [10;1]%Z in
  let kg := tn (mkShape 2 1 1) [7;7]%Z in
  wf image /\ wf incoming /\ wf kg /\ conv_ok (tshape image) (tshape kg) 1 (tshape incoming) 0
  /\ out2 (convolution_backprop_kernel Debug incoming image 1 0 kg) = Some (ints [12;23]%Z).
Proof.
  split; [demo_wf|]. split; [demo_wf|]. split; [demo_wf|].
  split; [repeat split; try reflexivity; discriminate|]. vm_compute; reflexivity.
Qed.
