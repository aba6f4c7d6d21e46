(** * C16, C17, C20, C22, C25, C29, C37, C57: backward passes are gradients *)
From Coq Require Import Reals Lra.
From Verif Require Import Base Arith Helper Tensor Convolution Network Bincode Serial Float32 Spec SpecF32 SpecLayer SpecNet SpecReal SpecChain RealArith.
From Verif Require Import ProofsGrad ProofsConvGrad ProofsChain Demo DemoReal DemoTrain DemoGrad.
Local Open Scope R_scope.

(** ** C16, C17 *)
(** The outgoing gradient is the gradient of the convolution in the image. Missing: other strides and other extents, where windows
    are skipped (see [C16_exactly_when]). *)
Theorem C16_gradient_partial : forall m bm (incoming outgoing : tensor R) (kernels : list (tensor R)) s rs ks g h o,
  let AR := R_arith m in
  holds bm incoming rs g -> holds bm outgoing s o -> all_hold bm kernels ks h -> len kernels = dk rs ->
  (forall k, (k < dk rs)%N -> conv_ok s ks 1 rs k) -> di rs = di ks -> dj rs = dj ks ->
  (di s <= 2147483648)%N -> (dj s <= 2147483648)%N -> (0 < di ks)%N -> (0 < dj ks)%N ->
  exists og d, convolution_backprop_outgoing_gradient bm incoming kernels 1 outgoing = Done (og, Ok tt) /\ holds bm og s d
    /\ forall x, gradient s (fun x' => pairing rs g (conv_linear ks 1 h x')) x d.
Proof. exact outgoing_adjoint. Qed.
Print Assumptions C16_gradient_partial.

(** The kernel gradient is the gradient of the convolution in the kernel, at every stride. Missing: more than one channel of the
    incoming gradient (see [C17_channels_refuted]). *)
Theorem C17_gradient_partial : forall m bm (incoming image result : tensor R) s rs ks g x o stride,
  let AR := R_arith m in
  holds bm incoming rs g -> holds bm image s x -> holds bm result ks o -> conv_ok s ks stride rs 0 -> dk rs = 1%N ->
  exists K d, convolution_backprop_kernel bm incoming image stride 0 result = Done (K, Ok tt) /\ holds bm K ks d
    /\ forall u, gradient ks (fun u' => pairing rs g (conv_linear ks stride (fun _ => u') x)) u d.
Proof. exact kernel_adjoint. Qed.
Print Assumptions C17_gradient_partial.

(** Three values against a kernel of two. *)
Example C16_gradient_case : let g := rt (mkShape 2 1 1) [5; 7] in let s := mkShape 3 1 1 in let ks := mkShape 2 1 1 in
  holds Debug g (mkShape 2 1 1) (at_ g) /\ holds Debug r_cx s (at_ r_cx) /\ all_hold Debug [r_kernel] ks (fun _ => at_ r_kernel)
  /\ conv_ok s ks 1 (mkShape 2 1 1) 0
  /\ pairing (mkShape 2 1 1) (at_ g) (conv_linear ks 1 (fun _ => at_ r_kernel) (at_ r_cx)) = 81.
Proof.
  cbv zeta. split; [demo_rhold|]. split; [demo_rhold|]. split; [|split; [repeat split; try reflexivity; discriminate|]].
  - intros n t H. destruct (N.to_nat n) as [|[|]]; cbn [nth_error] in H; [injection H as <-; demo_rhold|discriminate|discriminate].
  - cbv - [Rplus Rmult IZR Ropp]; lra.
Qed.

(** ** C20 *)

(** A window's gradient goes to its first maximum, or to pixel 0 if nothing in it is greater than negative infinity. *)
Theorem C20_routing : forall e bm (l : mp_layer) x g (X Y0 G og : tensor f32),
  let AR := f32_arith e in
  mp_ok l -> mp_run_state l = Training -> (0 < di (mp_input_shape l) * dj (mp_input_shape l) * dk (mp_input_shape l))%N ->
  holds bm X (mp_input_shape l) x -> shaped Y0 (mp_output_shape l) -> holds bm G (mp_output_shape l) g -> shaped og (mp_input_shape l) ->
  exists l1 Y og' win, mp_forward bm l X Y0 = Done (l1, Y, Ok tt) /\ mp_backward bm l1 X Y G og = Done (l1, og', Ok tt)
    /\ (forall i j k, in_shape (mp_output_shape l) i j k ->
          win i j k = 0%N /\ (forall v, In v (window_values (di (mp_mask_shape l)) (dj (mp_mask_shape l)) (mp_stride l) x i j k) -> f32_gtb v f32_ninf = false)
          \/ exists top, first_max (window_positions (di (mp_mask_shape l)) (dj (mp_mask_shape l)) (mp_stride l) i j k)
               (fun '(a, b, c) => x a b c) (fun '(a, b, c) => flat (mp_input_shape l) a b c) top (win i j k))
    /\ holds bm og' (mp_input_shape l) (fun a b c =>
         sum (map (fun '(i, j, k) => g i j k) (filter (fun '(i, j, k) => (win i j k =? flat (mp_input_shape l) a b c)%N) (cells (mp_output_shape l))))).
Proof. exact mp_routes_f32. Qed.
Print Assumptions C20_routing.

Theorem C20_conserves : forall m bm (l : mp_layer) x g (X Y0 G og : tensor R),
  let AR := R_arith m in
  mp_ok l -> mp_run_state l = Training -> (0 < di (mp_input_shape l) * dj (mp_input_shape l) * dk (mp_input_shape l))%N ->
  holds bm X (mp_input_shape l) x -> shaped Y0 (mp_output_shape l) -> holds bm G (mp_output_shape l) g -> shaped og (mp_input_shape l) ->
  exists l1 Y og' d, mp_forward bm l X Y0 = Done (l1, Y, Ok tt) /\ mp_backward bm l1 X Y G og = Done (l1, og', Ok tt)
    /\ holds bm og' (mp_input_shape l) d
    /\ Rsum (map (fun '(i, j, k) => d i j k) (cells (mp_input_shape l))) = Rsum (map (fun '(i, j, k) => g i j k) (cells (mp_output_shape l))).
Proof. exact mp_conserves. Qed.
Print Assumptions C20_conserves.

Theorem C20_true_gradient : forall m bm (l : mp_layer) x g win (X Y0 G og : tensor R),
  let AR := R_arith m in
  mp_ok l -> mp_run_state l = Training -> (0 < di (mp_input_shape l) * dj (mp_input_shape l) * dk (mp_input_shape l))%N ->
  holds bm X (mp_input_shape l) x -> shaped Y0 (mp_output_shape l) -> holds bm G (mp_output_shape l) g -> shaped og (mp_input_shape l) ->
  winners m (mp_mask_shape l) (mp_stride l) (mp_output_shape l) x win ->
  exists l1 Y og' d, mp_forward bm l X Y0 = Done (l1, Y, Ok tt)
    /\ holds bm Y (mp_output_shape l) (pool_map m (mp_mask_shape l) (mp_stride l) x)
    /\ mp_backward bm l1 X Y G og = Done (l1, og', Ok tt) /\ holds bm og' (mp_input_shape l) d
    /\ gradient (mp_input_shape l) (fun x => pairing (mp_output_shape l) g (pool_map m (mp_mask_shape l) (mp_stride l) x)) x d.
Proof. exact mp_true_gradient. Qed.
Print Assumptions C20_true_gradient.

(** Both overlapping windows over 1, 5, 2 are won by the 5. *)
Example C20_case : mp_ok r_mp_overlap /\ mp_run_state r_mp_overlap = Training
  /\ winners (-1000) (mp_mask_shape r_mp_overlap) (mp_stride r_mp_overlap) (mp_output_shape r_mp_overlap)
       (at_ (rt (mkShape 3 1 1) [1; 5; 2])) (fun _ _ _ => (1, 0, 0)%N)
  /\ pool_step r_mp_overlap (tn (mkShape 3 1 1) [1;5;2]%Z) (tn (mkShape 2 1 1) [10;20]%Z) (tn (mkShape 3 1 1) [7;7;7]%Z) = Some (ints [0;30;0]%Z).
Proof. split; [exact r_mp_overlap_ok|]. split; [reflexivity|]. split; [exact r_winners|]. vm_compute; reflexivity. Qed.

(** A window holding only NaN has its gradient added to pixel 0, which is not in it. *)
Theorem C20_no_maximum_refuted : exists (l : mp_layer) (X G og : tensor f32),
  mp_ok l /\ mp_run_state l = Training /\ shaped X (mp_input_shape l) /\ shaped G (mp_output_shape l) /\ shaped og (mp_input_shape l)
  /\ window_positions (di (mp_mask_shape l)) (dj (mp_mask_shape l)) (mp_stride l) 1 0 0 = [(1, 0, 0)%N]
  /\ tbits G = ints [0; 3]%Z /\ pool_step l X G og = Some (ints [3; 0]%Z).
Proof.
  exists (mkMP (mkShape 2 1 1) (mkShape 1 1 1) (mkShape 2 1 1) 1 "pool" Training [0; 0]%N),
    (mkTensor (mkStride 1 2 2) (mkShape 2 1 1) [f32_of_Z 5; b32 2143289344]), (tn (mkShape 2 1 1) [0;3]%Z), (tn (mkShape 2 1 1) [0;0]%Z).
  split; [repeat split; try reflexivity; try discriminate; repeat constructor|]. split; [reflexivity|].
  split; [demo_shaped|]. split; [demo_shaped|]. split; [demo_shaped|]. split; [reflexivity|]. split; vm_compute; reflexivity.
Qed.
Print Assumptions C20_no_maximum_refuted.

(** ** C22 *)

(** Full statement: the conclusion for every [sm_shape l]; it holds for column vectors only. *)
Theorem C22_column_partial : forall m bm (l : sm_layer R) n x g (X Y0 G og : tensor R),
  let AR := R_arith m in
  sm_ok l -> sm_run_state l = Training -> sm_shape l = mkShape n 1 1 ->
  holds bm X (mkShape n 1 1) x -> shaped Y0 (mkShape n 1 1) -> holds bm G (mkShape n 1 1) g -> shaped og (mkShape n 1 1) ->
  exists Y l2 og' d, sm_forward l X Y0 = Done (l, Y, Ok tt) /\ holds bm Y (mkShape n 1 1) (softmax_map (mkShape n 1 1) x)
    /\ sm_backward bm l X Y G og = Done (l2, og', Ok tt) /\ holds bm og' (mkShape n 1 1) d
    /\ gradient (mkShape n 1 1) (fun x => pairing (mkShape n 1 1) g (softmax_map (mkShape n 1 1) x)) x d.
Proof. exact sm_true_gradient. Qed.
Print Assumptions C22_column_partial.

(** The formula in any arithmetic, in terms of the output [y] it is given. *)
Theorem C22_formula_partial : forall F (AR : Arith F) bm (l : sm_layer F) n y g (X Y G og : tensor F),
  sm_ok l -> sm_run_state l = Training -> sm_shape l = mkShape n 1 1 ->
  holds bm Y (mkShape n 1 1) y -> holds bm G (mkShape n 1 1) g -> shaped og (mkShape n 1 1) ->
  exists l' og', sm_backward bm l X Y G og = Done (l', og', Ok tt)
    /\ holds bm og' (mkShape n 1 1) (fun i _ _ => fadd (fmul (y i 0%N 0%N) (g i 0%N 0%N))
         (fadd fzero (fmul (y i 0%N 0%N) (fmul (sum (map (fun p => fmul (y p 0%N 0%N) (g p 0%N 0%N)) (upto n))) fmone)))).
Proof. exact @sm_backward_formula. Qed.
Print Assumptions C22_formula_partial.

Example C22_case : sm_ok r_sm /\ sm_run_state r_sm = Training /\ sm_shape r_sm = mkShape 2 1 1
  /\ shaped (rt (mkShape 2 1 1) [1; 2]) (mkShape 2 1 1)
  /\ match sm_backward Debug (mkSM (mkShape 2 1 1) "soft" (tn (mkShape 1 1 1) [0]%Z) (tn (mkShape 2 1 1) [0;0]%Z) Training)
       (tn (mkShape 2 1 1) [0;0]%Z) (tn (mkShape 2 1 1) [2;3]%Z) (tn (mkShape 2 1 1) [5;7]%Z) (tn (mkShape 2 1 1) [9;9]%Z) with
     | Done (_, og, Ok _) => tbits og = ints [-52; -72]%Z
     | _ => False
     end.
Proof. split; [exact r_sm_ok|]. split; [reflexivity|]. split; [reflexivity|]. split; [demo_shaped|]. vm_compute; reflexivity. Qed.

(** Every other shape is accepted by the constructor and forward but refused by backward. *)
Theorem C22_other_shapes_fail_partial : forall F (AR : Arith F) bm (l : sm_layer F) (X Y G og : tensor F),
  sm_ok l -> sm_run_state l = Training -> (dj (sm_shape l) <> 1 \/ dk (sm_shape l) <> 1)%N ->
  shaped Y (sm_shape l) -> shaped G (sm_shape l) -> exists l' e, sm_backward bm l X Y G og = Done (l', og, Err e).
Proof. exact @sm_other_shapes. Qed.
Print Assumptions C22_other_shapes_fail_partial.

Theorem C22_all_shapes_refuted : exists (l : sm_layer f32) (X Y0 G og : tensor f32),
  sm_ok l /\ sm_run_state l = Training /\ sm_shape l = mkShape 2 2 1
  /\ shaped X (sm_shape l) /\ shaped Y0 (sm_shape l) /\ shaped G (sm_shape l) /\ shaped og (sm_shape l)
  /\ match sm_forward l X Y0 with
     | Done (l1, Y, Ok _) => match sm_backward Debug l1 X Y G og with Done (_, og', Err _) => tbits og' = tbits og | _ => False end
     | _ => False
     end.
Proof.
  exists (mkSM (mkShape 2 2 1) "soft" (tn (mkShape 1 1 1) [0]%Z) (tn (mkShape 2 2 1) [0;0;0;0]%Z) Training),
    (tn (mkShape 2 2 1) [0;0;0;0]%Z), (tn (mkShape 2 2 1) [0;0;0;0]%Z), (tn (mkShape 2 2 1) [1;0;0;0]%Z), (tn (mkShape 2 2 1) [0;0;0;0]%Z).
  split; [split; [repeat split; reflexivity|intros _; split; demo_shaped]|]. split; [reflexivity|]. split; [reflexivity|].
  do 4 (split; [demo_shaped|]). vm_compute; reflexivity.
Qed.
Print Assumptions C22_all_shapes_refuted.

(** ** C25 *)
Theorem C25_true_gradients : forall m bm (l : fc_layer R) M n w b x g wg bg (X Y0 G og : tensor R),
  let AR := R_arith m in
  fc_ok M n l -> fc_run_state l = Training ->
  holds bm (fc_weights l) (mkShape M n 1) w -> holds bm (fc_bias l) (mkShape M 1 1) b ->
  holds bm (fc_weights_gradients l) (mkShape M n 1) wg -> holds bm (fc_bias_gradients l) (mkShape M 1 1) bg ->
  holds bm X (mkShape n 1 1) x -> shaped Y0 (mkShape M 1 1) -> holds bm G (mkShape M 1 1) g -> shaped og (mkShape n 1 1) ->
  (forall i, (i < M)%N -> fc_pre n w b x i <> 0) ->
  exists l1 Y l2 og' d dw db, fc_forward bm l X Y0 = Done (l1, Y, Ok tt) /\ holds bm Y (mkShape M 1 1) (fc_map n w b x)
    /\ fc_backward bm l1 X Y G og = Done (l2, og', Ok tt)
    /\ holds bm og' (mkShape n 1 1) d
    /\ holds bm (fc_weights_gradients l2) (mkShape M n 1) (fun i j k => wg i j k + dw i j k)
    /\ holds bm (fc_bias_gradients l2) (mkShape M 1 1) (fun i j k => bg i j k + db i j k)
    /\ gradient (mkShape n 1 1) (fun x => pairing (mkShape M 1 1) g (fc_map n w b x)) x d
    /\ gradient (mkShape M n 1) (fun w => pairing (mkShape M 1 1) g (fc_map n w b x)) w dw
    /\ gradient (mkShape M 1 1) (fun b => pairing (mkShape M 1 1) g (fc_map n w b x)) b db.
Proof. exact fc_true_gradients. Qed.
Print Assumptions C25_true_gradients.

(** relu (x + y + 1) and relu (x - y) at (2, 4). *)
Example C25_case : fc_ok 2 2 r_fc /\ fc_run_state r_fc = Training /\ shaped (rt (mkShape 2 1 1) [2; 4]) (mkShape 2 1 1)
  /\ fc_pre 2 (at_ (fc_weights r_fc)) (at_ (fc_bias r_fc)) (at_ (rt (mkShape 2 1 1) [2; 4])) 0 = 7
  /\ fc_pre 2 (at_ (fc_weights r_fc)) (at_ (fc_bias r_fc)) (at_ (rt (mkShape 2 1 1) [2; 4])) 1 = -2.
Proof.
  split; [exact r_fc_ok|]. split; [reflexivity|]. split; [demo_shaped|].
  split; cbv - [Rplus Rmult IZR Ropp]; lra.
Qed.

(** ** C29 *)
(** Where no output is clipped, the backward pass of a convolutional layer with any number of filters gives the gradient in the image.
    Missing: other strides and extents, and clipped outputs. *)
Theorem C29_input_gradient_partial : forall m bm ks (l : conv_layer R) h b x g (X Y0 G og : tensor R),
  let AR := R_arith m in
  conv_layer_ok ks l -> cv_run_state l = Training -> all_hold bm (cv_kernels l) ks h ->
  (forall n t, nth_error (cv_biases l) (N.to_nat n) = Some t -> get_item bm t (mkIndex 0 0 0) = Done (b n)) ->
  holds bm X (cv_input_shape l) x -> shaped Y0 (cv_output_shape l) -> holds bm G (cv_output_shape l) g -> shaped og (cv_input_shape l) ->
  (forall i j k, in_shape (cv_output_shape l) i j k -> 0 < conv_pre ks (cv_stride l) h b x i j k) ->
  cv_stride l = 1%N -> di (cv_output_shape l) = di ks -> dj (cv_output_shape l) = dj ks -> (0 < di ks)%N -> (0 < dj ks)%N ->
  (di (cv_input_shape l) <= 2147483648)%N -> (dj (cv_input_shape l) <= 2147483648)%N ->
  exists l1 Y l2 og' d, cv_forward bm l X Y0 = Done (l1, Y, Ok tt) /\ holds bm Y (cv_output_shape l) (conv_map ks 1 h b x)
    /\ cv_backward bm l1 X Y G og = Done (l2, og', Ok tt) /\ holds bm og' (cv_input_shape l) d
    /\ gradient (cv_input_shape l) (fun x' => pairing (cv_output_shape l) g (conv_map ks 1 h b x')) x d.
Proof. exact conv_input_gradient. Qed.
Print Assumptions C29_input_gradient_partial.

(** With one filter, whatever the stride, it stores the gradient in the kernel, whether or not it then fails on the outgoing gradient.
    Missing: several filters, clipped outputs, and the bias (see [C29_refuted]). *)
Theorem C29_kernel_gradient_partial : forall m bm ks (l : conv_layer R) h b x g (X Y0 G og : tensor R),
  let AR := R_arith m in
  conv_layer_ok ks l -> cv_run_state l = Training -> all_hold bm (cv_kernels l) ks h ->
  (forall n t, nth_error (cv_biases l) (N.to_nat n) = Some t -> get_item bm t (mkIndex 0 0 0) = Done (b n)) ->
  holds bm X (cv_input_shape l) x -> shaped Y0 (cv_output_shape l) -> holds bm G (cv_output_shape l) g ->
  (forall i j k, in_shape (cv_output_shape l) i j k -> 0 < conv_pre ks (cv_stride l) h b x i j k) ->
  forall l1 Y l2 og' r, len (cv_kernels l) = 1%N ->
  cv_forward bm l X Y0 = Done (l1, Y, Ok tt) -> cv_backward bm l1 X Y G og = Done (l2, og', r) ->
  holds bm Y (cv_output_shape l) (conv_map ks (cv_stride l) h b x)
  /\ exists K d, cv_kernel_gradients l2 = [K] /\ holds bm K ks d
    /\ gradient ks (fun u => pairing (cv_output_shape l) g (conv_map ks (cv_stride l) (fun _ => u) b x)) (h 0%N) d.
Proof. exact conv_kernel_gradient. Qed.
Print Assumptions C29_kernel_gradient_partial.

(** The convolution of 1, 2, 3 by 1, 2 plus 1 has the outputs 6 and 9. *)
Example C29_gradient_case : conv_layer_ok (mkShape 2 1 1) r_cv /\ cv_run_state r_cv = Training
  /\ all_hold Debug (cv_kernels r_cv) (mkShape 2 1 1) (fun _ => at_ r_kernel)
  /\ holds Debug r_cx (cv_input_shape r_cv) (at_ r_cx)
  /\ forall i j k, in_shape (cv_output_shape r_cv) i j k -> 0 < conv_pre (mkShape 2 1 1) (cv_stride r_cv) (fun _ => at_ r_kernel) (fun _ => 1) (at_ r_cx) i j k.
Proof.
  assert (K : all_hold Debug [r_kernel] (mkShape 2 1 1) (fun _ => at_ r_kernel)).
  { intros n t H. destruct (N.to_nat n) as [|[|]]; cbn [nth_error] in H; [injection H as <-; demo_rhold|discriminate|discriminate]. }
  assert (X : holds Debug r_cx (mkShape 3 1 1) (at_ r_cx)) by demo_rhold.
  split; [exact r_cv_ok|]. split; [reflexivity|]. split; [exact K|]. split; [exact X|].
  intros i j k (Hi & Hj & Hk). cbn [di dj dk cv_output_shape r_cv cv_stride] in *.
  replace j with 0%N by (destruct j; [reflexivity|destruct p; discriminate]). replace k with 0%N by (destruct k; [reflexivity|destruct p; discriminate]).
  rewrite r_conv_pre; [|exact K|reflexivity|exact X|exact Hi]. destruct (N.eqb i 0); lra.
Qed.

(** ** C37 *)
Theorem C37_chain_rule : forall m (BT : Bits R) bm n (X : tensor R) x G g,
  let AR := R_arith m in
  training_built bm n -> layers n <> [] -> Forall backs_exactly (layers n) ->
  holds bm X (net_input_shape n) x -> holds bm G (net_output_shape n) g -> smooth m bm (map params_of (layers n)) X ->
  exists n1 n2 D d net, infer bm n X = Done (n1, Ok tt) /\ net_backward bm n1 G = Done (n2, Ok tt)
    /\ nth_error (intermediate_gradients n2) 0 = Some D /\ holds bm D (net_input_shape n) d
    /\ (forall x' X', holds bm X' (net_input_shape n) x' ->
          exists n' Y, infer bm n X' = Done (n', Ok tt) /\ get_output n' = Done (Ok Y) /\ holds bm Y (net_output_shape n) (net x'))
    /\ gradient (net_input_shape n) (fun x' => pairing (net_output_shape n) g (net x')) x d.
Proof. exact @chain_rule. Qed.
Print Assumptions C37_chain_rule.

(** Pooling, a fully connected layer and softmax. *)
Example C37_case : training_built Debug r_net /\ layers r_net <> [] /\ Forall backs_exactly (layers r_net)
  /\ net_input_shape r_net = mkShape 4 1 1 /\ net_output_shape r_net = mkShape 2 1 1
  /\ shaped r_x (net_input_shape r_net) /\ smooth (-1000) Debug (map params_of (layers r_net)) r_x
  /\ (exists f, nth_error (layers r_net) 1 = Some (LFC f) /\ shaped (fc_weights_gradients f) (mkShape 2 2 1)).
Proof.
  split; [exact r_net_built|]. split; [run_R; discriminate|]. split; [demo_layers|]. split; [run_R; reflexivity|].
  split; [run_R; reflexivity|]. split; [demo_shaped|]. split; [exact r_net_smooth|]. eexists. split; [run_R; reflexivity|]. demo_shaped.
Qed.

(** A convolution, a fully connected layer and softmax. *)
Example C37_conv_case : training_built Debug r_cnet /\ layers r_cnet <> [] /\ Forall backs_exactly (layers r_cnet)
  /\ net_input_shape r_cnet = mkShape 3 1 1 /\ net_output_shape r_cnet = mkShape 2 1 1
  /\ shaped r_cx (net_input_shape r_cnet) /\ smooth (-1000) Debug (map params_of (layers r_cnet)) r_cx.
Proof.
  split; [exact r_cnet_built|]. split; [run_R; discriminate|].
  split; [demo_layers|]. split; [run_R; reflexivity|].
  split; [run_R; reflexivity|]. split; [demo_shaped|]. exact r_cnet_smooth.
Qed.

(** ** C57 *)
Theorem C57_parameter_gradients : forall m (BT : Bits R) bm n (X : tensor R) x G g i f M k w b wg bg,
  let AR := R_arith m in
  training_built bm n -> Forall backs_exactly (layers n) ->
  holds bm X (net_input_shape n) x -> holds bm G (net_output_shape n) g -> smooth m bm (map params_of (layers n)) X ->
  nth_error (layers n) i = Some (LFC f) ->
  holds bm (fc_weights f) (mkShape M k 1) w -> holds bm (fc_bias f) (mkShape M 1 1) b ->
  holds bm (fc_weights_gradients f) (mkShape M k 1) wg -> holds bm (fc_bias_gradients f) (mkShape M 1 1) bg ->
  exists n1 n2 f2 dw db net, infer bm n X = Done (n1, Ok tt) /\ net_backward bm n1 G = Done (n2, Ok tt)
    /\ nth_error (layers n2) i = Some (LFC f2)
    /\ holds bm (fc_weights_gradients f2) (mkShape M k 1) (fun a b c => wg a b c + dw a b c)
    /\ holds bm (fc_bias_gradients f2) (mkShape M 1 1) (fun a b c => bg a b c + db a b c)
    /\ (forall nt W B w' b', well_built bm nt -> map params_of (layers nt) = list_set (map params_of (layers n)) i (PFC W B) ->
          holds bm W (mkShape M k 1) w' -> holds bm B (mkShape M 1 1) b' ->
          exists n' Y, infer bm nt X = Done (n', Ok tt) /\ get_output n' = Done (Ok Y) /\ holds bm Y (net_output_shape n) (net w' b'))
    /\ gradient (mkShape M k 1) (fun w' => pairing (net_output_shape n) g (net w' b)) w dw
    /\ gradient (mkShape M 1 1) (fun b' => pairing (net_output_shape n) g (net w b')) b db.
Proof. exact @chain_params. Qed.
Print Assumptions C57_parameter_gradients.

(** The same network with other weights and biases is one of those compared. *)
Example C57_case : let W := rt (mkShape 2 2 1) [3; 1; 4; 1] in let B := rt (mkShape 2 1 1) [5; 9] in
  training_built Debug r_net /\ well_built Debug (run_ops (network_new Training) (r_ops_with W B))
  /\ map params_of (layers (run_ops (network_new Training) (r_ops_with W B))) = list_set (map params_of (layers r_net)) 1 (PFC W B)
  /\ smooth (-1000) Debug (map params_of (layers r_net)) r_x.
Proof.
  cbv zeta. split; [exact r_net_built|]. split; [apply r_net_with_built; demo_shaped|]. split; [run_R; reflexivity|]. exact r_net_smooth.
Qed.
