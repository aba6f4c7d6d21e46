(** * C73: gradients in f32 are close to the exact sums *)
From Coq Require Import Reals.
From Verif Require Import Base Arith Helper Tensor Network Float32 Spec SpecLayer SpecTrain SpecReal SpecError SpecRound.
From Verif Require Import ProofsRound Demo DemoNet DemoTrain DemoRound.
Local Open Scope R_scope.

(** After any number of pairs, every weight and bias gradient of a fully connected layer that did not overflow. *)
Theorem C73_fully_connected : forall e bm m n (ops : list (train_op f32)) (pairs : list (values * values)) (l : fc_layer f32) w b wg bg,
  let AR := f32_arith e in
  fc_ok m n l -> fc_run_state l = Training ->
  holds bm (fc_weights l) (mkShape m n 1) w -> holds bm (fc_bias l) (mkShape m 1 1) b ->
  holds bm (fc_weights_gradients l) (mkShape m n 1) wg -> holds bm (fc_bias_gradients l) (mkShape m 1 1) bg ->
  Forall2 (fun op p => pair_holds bm m n op (Some p)) ops pairs ->
  exists l' wg' bg', train_all bm (LFC l) ops = Done (LFC l', Ok tt)
    /\ holds bm (fc_weights_gradients l') (mkShape m n 1) wg' /\ holds bm (fc_bias_gradients l') (mkShape m 1 1) bg'
    /\ (forall i j, (i < m)%N -> (j < n)%N ->
          let exact p := passed e n w b i p * real (fst p j 0%N 0%N) in
          within (wg' i j 0%N) (real (wg i j 0%N) + Rsum (map exact pairs))
            (bound (1 + length pairs) (Rabs (real (wg i j 0%N)) + Rsum (map (fun p => Rabs (exact p)) pairs))))
    /\ (forall i, (i < m)%N ->
          within (bg' i 0%N 0%N) (real (bg i 0%N 0%N) + Rsum (map (passed e n w b i) pairs))
            (((1 + u) ^ length pairs - 1) * (Rabs (real (bg i 0%N 0%N)) + Rsum (map (fun p => Rabs (passed e n w b i p)) pairs)))).
Proof. exact fc_gradient_errors. Qed.
Print Assumptions C73_fully_connected.

(** The gradient handed to the layer before. *)
Theorem C73_outgoing : forall e bm m n (l : fc_layer f32) X Y g og w b x gf,
  let AR := f32_arith e in
  fc_ok m n l -> fc_run_state l = Training ->
  holds bm (fc_weights l) (mkShape m n 1) w -> holds bm (fc_bias l) (mkShape m 1 1) b ->
  holds bm X (mkShape n 1 1) x -> holds bm g (mkShape m 1 1) gf -> shaped Y (mkShape m 1 1) -> shaped og (mkShape n 1 1) ->
  exists l1 y l2 og' o, fc_forward bm l X Y = Done (l1, y, Ok tt) /\ fc_backward bm l1 X y g og = Done (l2, og', Ok tt)
    /\ holds bm og' (mkShape n 1 1) o
    /\ forall j, (j < n)%N ->
         let exact i := real (w i j 0%N) * passed e n w b i (x, gf) in
         within (o j 0%N 0%N) (Rsum (map exact (upto m))) (bound (N.to_nat m) (Rsum (map (fun i => Rabs (exact i)) (upto m)))).
Proof. exact fc_outgoing_error. Qed.
Print Assumptions C73_outgoing.

(** The kernel gradients a convolutional layer stores, against the sum it computes (without the mask: see C29). *)
Theorem C73_kernels : forall e bm ks (l l' : conv_layer f32) x gf X Y g og og' r,
  let AR := f32_arith e in
  conv_layer_ok ks l -> cv_run_state l = Training -> holds bm X (cv_input_shape l) x -> holds bm g (cv_output_shape l) gf ->
  cv_backward bm l X Y g og = Done (l', og', r) ->
  exists kg, len (cv_kernel_gradients l') = len (cv_kernels l) /\ all_hold bm (cv_kernel_gradients l') ks kg
    /\ forall n a b c, in_shape ks a b c ->
         let s := cv_stride l in
         let exact cell := let '(i, j, k) := cell in real (x (a + i * s) (b + j * s) c)%N * real (gf i j k) in
         let outputs := cells (cv_output_shape l) in
         within (kg n a b c) (Rsum (map exact outputs)) (bound (length outputs) (Rsum (map (fun q => Rabs (exact q)) outputs))).
Proof. exact conv_gradient_error. Qed.
Print Assumptions C73_kernels.

(** Weight gradients (2^24 + 1, 3) and bias gradient 2, of which the first is rounded to 2^24. *)
Example C73_case : fc_ok 1 2 t_fc /\ (exists pairs, Forall2 (fun op p => pair_holds Debug 1 2 op (Some p)) g_batch pairs)
  /\ fc_grads (train_all Debug (LFC t_fc) g_batch) = Some (ints [16777216;3]%Z, ints [2]%Z).
Proof.
  split; [exact t_fc_ok|]. split; [|vm_compute; reflexivity].
  exists (map (fun op => match op with TPair x _ g _ => (at_ x, at_ g) | TClear => (at_ t_x, at_ t_y) end) g_batch).
  repeat (constructor; [split; [demo_hold|split; [demo_hold|split; (split; [demo_wf|reflexivity])]]|]). constructor.
Qed.

(** Image (2^24, 1, 1) and gradient (1, 1): kernel gradient (2^24 + 1, 2). *)
Example C73_convolutional_case : conv_layer_ok (mkShape 2 1 1) g_cv
  /\ match cv_backward Debug g_cv (tn (mkShape 3 1 1) [16777216;1;1]%Z) (tn (mkShape 2 1 1) [0;0]%Z) (tn (mkShape 2 1 1) [1;1]%Z) (tn (mkShape 3 1 1) [0;0;0]%Z) with
     | Done (l', _, Ok _) => map tbits (cv_kernel_gradients l') = [ints [16777216;2]%Z]
     | _ => False
     end.
Proof. split; [exact g_cv_ok|]. vm_compute. reflexivity. Qed.
